(** * Model_geom: cell and face geometry.
    Models manapy/ddm/pyccel_ddm.py:15-206 and 261-282, manapy/ddm/numba_ddm.py:76-92 and manapy/ddm/domain.py:374-438.
    Floating point numbers are real numbers.  Parallel output arrays written at one index in one iteration
    (e.g. normalf, mesuref, centerf, namef) are one list of records. *)
From Coq Require Export Reals.
From Verif Require Import Py Model_part Model_label Model_conn.
Open Scope Z_scope.

(** [for i in range(n): s[i] = F(i, s[i])] *)
Definition for_each {A} (n : Z) (F : Z -> A -> res A) (s : list A) : res (list A) :=
  foldM (fun s i => do x <- get s i; do y <- F i x; set s i y) (range n) s.

Definition padd (a b : pt) : pt := P3 (px a + px b) (py a + py b) (pz a + pz b).
Definition pscal (k : R) (a : pt) : pt := P3 (k * px a) (k * py a) (k * pz a).
Definition pdot (a b : pt) : R := (px a * px b + py a * py b + pz a * pz b)%R.
(** numba_ddm.py:56-65 wedge_3d, numpy.cross *)
Definition pcross (u v : pt) : pt :=
  P3 (py u * pz v - pz u * py v) (pz u * px v - px u * pz v) (px u * py v - py u * px v).
Definition p0 : pt := P3 0 0 0.

Record cellgeo := { cg_nodes : list Z; cg_center : pt; cg_volume : R }.
Record facegeo := { fg_normal : pt; fg_mesure : R; fg_center : pt; fg_name : Z }.
Definition cg0 (nodes : list Z) : cellgeo := {| cg_nodes := nodes; cg_center := p0; cg_volume := 0 |}.
Definition fg0 : facegeo := {| fg_normal := p0; fg_mesure := 0; fg_center := p0; fg_name := 0 |}.

(** pyccel_ddm.py:154-167, body of Compute_2dcentervolumeOfCell for one cell *)
Definition centervol2 (vertex : list pt) (i : Z) (old : cellgeo) : res cellgeo :=
  let r := cg_nodes old in
  do s1 <- get r 0; do s2 <- get r 1; do s3 <- get r 2;
  do a <- get vertex s1; do b <- get vertex s2; do c <- get vertex s3;
  let center := P3 (1/3 * (px a + px b + px c)) (1/3 * (py a + py b + py c)) 0 in
  let volume := (1/2 * Rabs ((px a - px b) * (py a - py c) - (px a - px c) * (py a - py b)))%R in
  let var1 := ((px b - px a) * (py c - py a) - (py b - py a) * (px c - px a))%R in
  do r <- (if Rlt_dec var1 0 then do r <- set r 0 s1; do r <- set r 1 s3; set r 2 s2 else ret r);
  ret {| cg_nodes := r; cg_center := center; cg_volume := volume |}.

(** pyccel_ddm.py:184-206, body of Compute_3dcentervolumeOfCell for one cell *)
Definition centervol3 (vertex : list pt) (i : Z) (old : cellgeo) : res cellgeo :=
  let r := cg_nodes old in
  do s1 <- get r 0; do s2 <- get r 1; do s3 <- get r 2; do s4 <- get r 3;
  do a <- get vertex s1; do b <- get vertex s2; do c <- get vertex s3; do d <- get vertex s4;
  let center := P3 (1/4 * (px a + px b + px c + px d)) (1/4 * (py a + py b + py c + py d)) (1/4 * (pz a + pz b + pz c + pz d)) in
  let u := psub b a in let v := psub c a in let w := psub d a in
  ret {| cg_nodes := r; cg_center := center; cg_volume := (1/6 * Rabs (pdot u (pcross v w)))%R |}.

(** domain.py:374-381 *)
Definition compute_cells (dim : Z) (nodeid : list (list Z)) (vertex : list pt) : res (list cellgeo) :=
  for_each (zlen nodeid) (if dim =? 2 then centervol2 vertex else centervol3 vertex) (map cg0 nodeid).

(** pyccel_ddm.py:56-59 / 140-143: the sign of the normal *)
Definition orient_away (norm : pt) (d : R) : pt := if Rlt_dec 0 d then pscal (-1) norm else norm.

(** pyccel_ddm.py:27-61, body of create_info_2dfaces for face i; the z component of norm stays 0 *)
Definition face_info2 (cellid nodeid : list (list Z)) (namen : list Z) (vertex centerc : list pt) (i : Z) (old : facegeo) : res facegeo :=
  do n0 <- get2 nodeid i 0; do n1 <- get2 nodeid i 1;
  do c1 <- get2 cellid i 1;
  do name <- (if c1 =? -1 then do a <- get namen n0; do b <- get namen n1; ret (name2 a b) else ret (fg_name old));
  do v0 <- get vertex n0; do v1 <- get vertex n1;
  let norm := P3 (py v0 - py v1) (px v1 - px v0) 0 in
  let centerf := pscal (1/2) (padd v0 v1) in
  do c0 <- get2 cellid i 0; do cc <- get centerc c0;
  let snorm := psub cc centerf in
  let normal := orient_away norm (px snorm * px norm + py snorm * py norm) in
  ret {| fg_normal := normal; fg_mesure := sqrt (px normal ^ 2 + py normal ^ 2); fg_center := centerf; fg_name := name |}.

(** pyccel_ddm.py:77-145, body of create_info_3dfaces for face i *)
Definition face_info3 (cellid nodeid : list (list Z)) (namen : list Z) (vertex centerc : list pt) (i : Z) (old : facegeo) : res facegeo :=
  do n0 <- get2 nodeid i 0; do n1 <- get2 nodeid i 1; do n2 <- get2 nodeid i 2;
  do c1 <- get2 cellid i 1;
  do name <- (if c1 =? -1 then do a <- get namen n0; do b <- get namen n1; do c <- get namen n2; ret (name3 a b c) else ret (fg_name old));
  do v0 <- get vertex n0; do v1 <- get vertex n1; do v2 <- get vertex n2;
  let norm := pscal (1/2) (pcross (psub v1 v0) (psub v2 v0)) in
  let centerf := pscal (1/3) (padd (padd v0 v1) v2) in
  do c0 <- get2 cellid i 0; do cc <- get centerc c0;
  let snorm := psub cc centerf in
  let normal := orient_away norm (pdot snorm norm) in
  ret {| fg_normal := normal; fg_mesure := sqrt (px normal ^ 2 + py normal ^ 2 + pz normal ^ 2); fg_center := centerf; fg_name := name |}.

(** domain.py:412-422 *)
Definition compute_faces (dim : Z) (cellid nodeid : list (list Z)) (namen : list Z) (vertex centerc : list pt) : res (list facegeo) :=
  for_each (zlen nodeid) (if dim =? 2 then face_info2 cellid nodeid namen vertex centerc else face_info3 cellid nodeid namen vertex centerc)
    (zeros_like fg0 (zlen nodeid)).

(** pyccel_ddm.py:261-282 create_NormalFacesOfCell: row i of nf *)
Definition cell_normals (centerc centerf : list pt) (faceid : list (list Z)) (normal : list pt) (dim : Z) (i : Z) : res (list pt) :=
  do G <- get centerc i;
  mapM (fun j => do f <- get2 faceid i j; do c <- get centerf f; do n <- get normal f;
                 ret (if Rlt_dec (pdot (psub G c) n) 0 then n else pscal (-1) n)) (range (dim + 1)).
(** domain.py:426-429 (2D only) *)
Definition create_nf (centerc centerf : list pt) (faceid : list (list Z)) (normal : list pt) (nbelements dim : Z) : res (list (list pt)) :=
  mapM (cell_normals centerc centerf faceid normal dim) (range nbelements).

(** numba_ddm.py:83-90, body of oriente_3dfacenodeid for face i *)
Definition orient_face (normal : list pt) (vertex : list pt) (i : Z) (r : list Z) : res (list Z) :=
  do n1 <- get r 0; do n2 <- get r 1; do n3 <- get r 2;
  do s1 <- get vertex n1; do s2 <- get vertex n2; do s3 <- get vertex n3;
  do n <- get normal i;
  if Rlt_dec (pdot (pcross (psub s2 s1) (psub s3 s1)) n) 0 then do r <- set r 1 n3; set r 2 n2 else ret r.
(** numba_ddm.py:76-92 *)
Definition oriente_3dfacenodeid (nodeid : list (list Z)) (normal vertex : list pt) : res (list (list Z)) :=
  for_each (zlen nodeid) (orient_face normal vertex) nodeid.

Record geometry := { ge_cells : list cellgeo; ge_conn : conn; ge_faces : list facegeo; ge_nf : list (list pt);
                     ge_facenodes : list (list Z) }.
(** domain.py:374-438: geometry part of Domain.__init__ (before halos) *)
Definition build_geometry (dim : Z) (nodeid : list (list Z)) (vertex : list pt) (namen : list Z) : res geometry :=
  do cs <- compute_cells dim nodeid vertex;
  do cn <- build_faces dim (map cg_nodes cs);
  do fs <- compute_faces dim (cn_cellid cn) (cn_faces cn) namen vertex (map cg_center cs);
  do nf <- (if dim =? 2 then create_nf (map cg_center cs) (map fg_center fs) (cn_faceid cn) (map fg_normal fs) (zlen nodeid) dim
            else ret (zeros_like (zeros_like p0 (dim + 1)) (zlen nodeid)));
  do fn <- (if dim =? 3 then oriente_3dfacenodeid (cn_faces cn) (map fg_normal fs) vertex else ret (cn_faces cn));
  ret {| ge_cells := cs; ge_conn := cn; ge_faces := fs; ge_nf := nf; ge_facenodes := fn |}.
