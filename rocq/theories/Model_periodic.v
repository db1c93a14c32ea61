(** * Model_periodic: the tables of periodic boundaries.
    Models manapy/ddm/numba_ddm.py:963-1108 (update_pediodic_info_2d) and 1111-1311 (update_pediodic_info_3d).
    Floats are reals; [f32] stands for numpy.float32 and is a parameter: the theorems hold for every such function, or say
    what they need of it.  The counter [longper], which nothing reads, is left out. *)
From Verif Require Import Py Model_part Model_label Model_conn Model_geom Model_halo.
From Coq Require Import Reals.
Open Scope Z_scope.

Inductive axis := AX | AY | AZ.
Definition coord (a : axis) (p : pt) : R := match a with AX => px p | AY => py p | AZ => pz p end.
Definition set_coord (a : axis) (p : pt) (v : R) : pt :=
  match a with AX => P3 v (py p) (pz p) | AY => P3 (px p) v (pz p) | AZ => P3 (px p) (py p) v end.

(** Python dictionaries with a key tuple([x, y, z]) *)
Definition key := (R * R * R)%type.
Definition key_eqb (a b : key) : bool :=
  let '(x, y, z) := a in let '(x', y', z') := b in
  if Req_EM_T x x' then if Req_EM_T y y' then if Req_EM_T z z' then true else false else false else false.
(** [d[k] = v]: the last value written counts *)
Definition kdict := list (key * Z).
Definition kget (d : kdict) (k : key) : res Z := match find (fun p => key_eqb (fst p) k) d with Some p => Ok (snd p) | None => Err KeyError end.
(** [d.setdefault(k, []).append(v)]: all values of the key, in order *)
Definition mget (d : kdict) (k : key) : res (list Z) := match filter (fun p => key_eqb (fst p) k) d with [] => Err KeyError | l => Ok (map snd l) end.

Section F32.
Context (f32 : R -> R).
(** tuple([float32(x), float32(y), float32(z)]) *)
Definition key_of (p : pt) : key := (f32 (px p), f32 (py p), f32 (pz p)).
(** the key looked up.  For the faces of the x direction (l. 987, 997) the displacement is inside the rounding, everywhere else outside *)
Definition key_moved (inside : bool) (a : axis) (d : R) (p : pt) : key :=
  let m v := if inside then f32 (v + d) else (f32 v + d)%R in
  match a with AX => (m (px p), f32 (py p), f32 (pz p)) | AY => (f32 (px p), m (py p), f32 (pz p)) | AZ => (f32 (px p), f32 (py p), m (pz p)) end.

(** max of a column; ValueError when it is empty *)
Definition max_coord (a : axis) (l : list pt) : res R :=
  match l with [] => Err ValueError | p :: t => Ok (fold_left (fun m q => Rmax m (coord a q)) t (coord a p)) end.

(** the tables under construction: faces._cellid, cells._periodicfid, cells._periodicnid, cells._shift, nodes._periodicid, nodes._ghostcenter
    with nodes._ghostfaceinfo, and the loop variable j, which the 2D function reads after its loop (l. 1063) *)
Record pstate := { ps_cellid : list (list Z); ps_fid : list Z; ps_nid : list (list Z); ps_shift : list pt; ps_node : list (list Z);
  ps_ghost : list (list nodeghost); ps_j : option Z }.
(** what is read: faces._center, cells._cellnid, nodes._vertex, nodes._cellid *)
Record pinput := { pi_fcenter : list pt; pi_cellnid : list (list Z); pi_vertex : list pt; pi_nodecell : list (list Z) }.

Definition after_loop (n : Z) (j : option Z) : option Z := if 0 <? n then Some (n - 1) else j.

(** l. 977-980 (1029-1032, 1231-1234) *)
Definition face_dict (I : pinput) (cellid : list (list Z)) (faces : list Z) : res kdict :=
  foldM (fun d i => do x <- get (pi_fcenter I) i; do c <- get2 cellid i 0; ret ((key_of x, c) :: d)) faces [].
(** l. 986-994 and its five copies: one face; [d]: displacement of the key, [sh]: the shift written *)
Definition per_face (I : pinput) (dict : kdict) (inside : bool) (a : axis) (d sh : R) (s : pstate) (i : Z) : res pstate :=
  do x <- get (pi_fcenter I) i;
  do c1 <- kget dict (key_moved inside a d x);
  do cellid <- set2 (ps_cellid s) i 1 c1;
  do c0 <- get2 cellid i 0;
  do fid <- set (ps_fid s) c0 c1;
  do row <- get (pi_cellnid I) c1; do n <- get row (-1);
  do nid <- foldM (fun nid j => do c <- get row j; append_at nid c0 c) (range n) (ps_nid s);
  do l <- get nid c0;
  do shift <- foldM (fun t c => do p <- get t c; set t c (set_coord a p sh)) l (ps_shift s);
  ret {| ps_cellid := cellid; ps_fid := fid; ps_nid := nid; ps_shift := shift; ps_node := ps_node s; ps_ghost := ps_ghost s; ps_j := after_loop n (ps_j s) |}.

(** l. 1009-1011: the cells of each node; with the loop variable *)
Definition node_dict (I : pinput) (nodes : list Z) (j : option Z) : res (kdict * option Z) :=
  foldM (fun '(d, j) i =>
    do row <- get (pi_nodecell I) i; do n <- get row (-1); do v <- get (pi_vertex I) i;
    do d <- foldM (fun d j => do c <- get row j; ret (d ++ [(key_of v, c)])) (range n) d;
    ret (d, after_loop n j)) nodes ([], j).
(** l. 1062-1063: the same without the inner loop *)
Definition node_dict_nojloop (I : pinput) (nodes : list Z) (j : option Z) : res kdict :=
  foldM (fun d i => do v <- get (pi_vertex I) i; do row <- get (pi_nodecell I) i;
                    match j with None => Err UnboundLocalError | Some j => do c <- get row j; ret (d ++ [(key_of v, c)]) end) nodes [].

(** [[-1., -1., -1., -1., -1.]] and its companion in ghostfaceinfo *)
Definition no_ghost : nodeghost := {| ng_pt := P3 (-1) (-1) (-1); ng_cell := -1; ng_name := -1; ng_face := -1; ng_fcenter := P3 (-1) (-1) (-1); ng_fnormal := P3 (-1) (-1) (-1) |}.
(** l. 1016-1019 and its five copies: one node *)
Definition per_node (I : pinput) (dict : kdict) (a : axis) (d : R) (s : pstate) (i : Z) : res pstate :=
  do v <- get (pi_vertex I) i;
  do l <- mget dict (key_moved false a d v);
  do node <- extend_at (ps_node s) i l;
  do ghost <- set (ps_ghost s) i [no_ghost];
  ret {| ps_cellid := ps_cellid s; ps_fid := ps_fid s; ps_nid := ps_nid s; ps_shift := ps_shift s; ps_node := node; ps_ghost := ghost; ps_j := ps_j s |}.
Definition with_j (s : pstate) (j : option Z) : pstate :=
  {| ps_cellid := ps_cellid s; ps_fid := ps_fid s; ps_nid := ps_nid s; ps_shift := ps_shift s; ps_node := ps_node s; ps_ghost := ps_ghost s; ps_j := j |}.

(** one direction.  The first side (in, upper, front) looks its partner up at +maxcoord in x, at -maxcoord in y and z; the shift written is
    -max(vertex) for the first side and +max(vertex) for the second, in all directions (l. 994/1004, 1045/1054, 1247/1256) *)
Definition direction (I : pinput) (a : axis) (jloop : bool) (first second nfirst nsecond : list Z) (s : pstate) : res pstate :=
  do leftb <- face_dict I (ps_cellid s) first;
  do rightb <- face_dict I (ps_cellid s) second;
  do sh <- max_coord a (pi_vertex I);
  do m <- max_coord a (pi_fcenter I);
  let inside := match a with AX => true | _ => false end in
  let d := match a with AX => m | _ => (- m)%R end in
  do s <- foldM (per_face I rightb inside a d (-1 * sh)) first s;
  do s <- foldM (per_face I leftb inside a (- d) sh) second s;
  do (leftb, j) <- node_dict I nfirst (ps_j s);
  do (rightb, j) <- (if jloop then node_dict I nsecond j else do r <- node_dict_nojloop I nsecond j; ret (r, j));
  let s := with_j s j in
  do s <- foldM (per_node I rightb a d) nfirst s;
  foldM (per_node I leftb a (- d)) nsecond s.

(** l. 1075-1089 / 1091-1102: unique, pad with -1 to the longest row, append the number of entries that are not -1 *)
Definition pad_unique (rows : list (list Z)) : list (list Z) :=
  let u := map np_unique rows in
  let m := fold_left (fun m r => Z.max m (zlen r)) u 0 in
  map (fun r => let r' := r ++ repeat (-1) (Z.to_nat (m - zlen r)) in r' ++ [zlen (filter (fun c => negb (c =? -1)) r')]) u.

Record pertables := { pt_cellid : list (list Z); pt_fid : list Z; pt_nid : list (list Z); pt_shift : list pt; pt_node : list (list Z); pt_ghost : list (list nodeghost) }.
(** update_pediodic_info_2d / update_pediodic_info_3d; the lists of faces and nodes are those of domain.py:466-504 *)
Definition update_periodic (dim nbcells nbnodes : Z) (I : pinput) (cellid : list (list Z)) (ghost : list (list nodeghost)) (name nodename : list Z) : res pertables :=
  let f := where_eq name in let n := where_eq nodename in
  let s := {| ps_cellid := cellid; ps_fid := zeros_like 0 nbcells; ps_nid := zeros_like [] nbcells; ps_shift := zeros_like p0 nbcells;
              ps_node := zeros_like [] nbnodes; ps_ghost := ghost; ps_j := None |} in
  do s <- direction I AX true (f 11) (f 22) (n 11) (n 22) s;
  do s <- direction I AY (negb (dim =? 2)) (f 33) (f 44) (n 33) (n 44) s;
  do s <- (if dim =? 3 then direction I AZ true (f 55) (f 66) (n 55) (n 66) s else ret s);
  ret {| pt_cellid := ps_cellid s; pt_fid := map (fun c => if c =? 0 then -1 else c) (ps_fid s); pt_nid := pad_unique (ps_nid s); pt_shift := ps_shift s;
         pt_node := pad_unique (ps_node s); pt_ghost := ps_ghost s |}.
End F32.
