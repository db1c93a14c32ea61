(** * Spec_interp: vocabulary for C24-C28. *)
From Verif Require Import Py Model_part Model_conn Spec_conn Model_geom Spec_geom Model_interp.
From Coq Require Import Reals.
Open Scope Z_scope.

(** where a value of a variable is stored: at a cell, at the ghost of a boundary face, at a halo cell, at a halo ghost *)
Inductive source := Scell (c : Z) | Sghost (f : Z) | Shalo (h : Z) | Shaloghost (k : Z).
Definition value_at (W : values) (s : source) : R :=
  match s with Scell c => nthZ 0%R (w_c W) c | Sghost f => nthZ 0%R (w_ghost W) f
             | Shalo h => nthZ 0%R (w_halo W) h | Shaloghost k => nthZ 0%R (w_haloghost W) k end.

(** tables whose rows hold numbers in their first columns and how many there are in the last column *)
Definition row_count (row : list Z) : Z := nthZ 0 row (zlen row - 1).
Definition counted (row : list Z) : list Z := firstn (Z.to_nat (row_count row)) row.
Definition row_ok (n : Z) (row : list Z) : Prop :=
  0 < zlen row /\ 0 <= row_count row < zlen row /\ forall c, In c (counted row) -> 0 <= c < n.
(** ghost tables: padding entries are marked -1; when the first entry is padding so are the others *)
Definition real_ghosts (row : list gentry) : list gentry := filter (fun e => negb (g_last e =? -1)) row.
Definition ghost_row_ok (n : Z) (row : list gentry) : Prop :=
  0 < zlen row /\ (g_cell (nthZ gpad row 0) = -1 -> real_ghosts row = []) /\ forall e, In e (real_ghosts row) -> 0 <= g_last e < n.

(** labels of periodic boundaries and the image of a centre under the shift of its cell: x for 11/22, y for 33/44, z for 55/66 *)
Definition is_x (l : Z) : bool := (l =? 11) || (l =? 22).
Definition is_y (l : Z) : bool := (l =? 33) || (l =? 44).
Definition is_z (l : Z) : bool := (l =? 55) || (l =? 66).
Definition is_periodic (dim l : Z) : bool := is_x l || is_y l || ((dim =? 3) && is_z l).
Definition image (l : Z) (p s : pt) : pt :=
  P3 (px p + if is_x l then px s else 0) (py p + if is_y l then py s else 0) (pz p + if is_z l then pz s else 0).

(** the points around node i, with the place where the value belonging to each is stored: centres of the cells around the
    node, ghost centres, images of the periodic neighbours, and at a partition boundary the halo ghosts and the halo cells *)
Definition stencil (dim : Z) (N : nodedata) (i : Z) : list (pt * source) :=
  let old := nthZ 0 (nd_old N) i in
  map (fun c => (nthZ vzero (nd_centerc N) c, Scell c)) (counted (nthZ [] (nd_cellid N) i)) ++
  map (fun e => (g_pt e, Sghost (g_last e))) (real_ghosts (nthZ [] (nd_ghost N) i)) ++
  (if is_periodic dim old then
     map (fun c => (image old (nthZ vzero (nd_centerc N) c) (nthZ vzero (nd_shift N) c), Scell c)) (counted (nthZ [] (nd_periodic N) i))
   else []) ++
  (if nthZ 0 (nd_name N) i =? 10 then
     map (fun e => (g_pt e, Shaloghost (g_last e))) (real_ghosts (nthZ [] (nd_haloghost N) i)) ++
     map (fun h => (nthZ vzero (nd_centerh N) h, Shalo h)) (counted (nthZ [] (nd_haloid N) i))
   else []).

(** the tables have one row per node and refer to existing cells, ghosts and halos
    ([nf] faces, [nhg] halo ghosts) *)
Record wf_nodedata (dim : Z) (N : nodedata) (nf nhg : Z) : Prop := {
  wn_dim : dim = 2 \/ dim = 3;
  wn_len : zlen (nd_old N) = zlen (nd_vertex N) /\ zlen (nd_name N) = zlen (nd_vertex N) /\ zlen (nd_cellid N) = zlen (nd_vertex N) /\
           zlen (nd_ghost N) = zlen (nd_vertex N) /\ zlen (nd_periodic N) = zlen (nd_vertex N) /\
           zlen (nd_haloghost N) = zlen (nd_vertex N) /\ zlen (nd_haloid N) = zlen (nd_vertex N) /\ zlen (nd_shift N) = zlen (nd_centerc N);
  wn_cell : forall i, 0 <= i < zlen (nd_vertex N) -> row_ok (zlen (nd_centerc N)) (nthZ [] (nd_cellid N) i);
  wn_ghost : forall i, 0 <= i < zlen (nd_vertex N) -> ghost_row_ok nf (nthZ [] (nd_ghost N) i);
  wn_per : forall i, 0 <= i < zlen (nd_vertex N) -> is_periodic dim (nthZ 0 (nd_old N) i) = true -> row_ok (zlen (nd_centerc N)) (nthZ [] (nd_periodic N) i);
  wn_halo : forall i, 0 <= i < zlen (nd_vertex N) -> nthZ 0 (nd_name N) i = 10 ->
            row_ok (zlen (nd_centerh N)) (nthZ [] (nd_haloid N) i) /\ ghost_row_ok nhg (nthZ [] (nd_haloghost N) i) }.
Definition wf_values (W : values) (nc nf nh nhg : Z) : Prop :=
  zlen (w_c W) = nc /\ zlen (w_ghost W) = nf /\ zlen (w_halo W) = nh /\ zlen (w_haloghost W) = nhg.

(** affine function with value c at the origin and gradient g; in 2D it depends on x and y only *)
Definition affine (c : R) (g p : pt) : R := (c + vdot g p)%R.
Definition gradient (dim : Z) (g : pt) : Prop := dim = 2 -> pz g = 0%R.
(** some points do not lie on a line (2D) / in a plane (3D): the affine least-squares fit is unique *)
Definition spans (dim : Z) (l : list pt) : Prop :=
  if dim =? 2 then exists a b c, In a l /\ In b l /\ In c l /\ turn a b c <> 0%R
  else exists a b c d, In a l /\ In b l /\ In c l /\ In d l /\ det4 a b c d <> 0%R.
(** the same, seen from the point x: some displacements from x are linearly independent *)
Definition spans_from (dim : Z) (x : pt) (l : list pt) : Prop :=
  if dim =? 2 then exists a b, In a l /\ In b l /\ turn x a b <> 0%R
  else exists a b c, In a l /\ In b l /\ In c l /\ det4 x a b c <> 0%R.
Definition rsum (l : list R) : R := fold_right Rplus 0%R l.

(** the points around cell i: centres of the cells sharing a node, images of the periodic neighbours (2D), halo cells
    sharing a node, and for each node of the cell its ghosts (when the node is not a periodic or special one: label at most 2*dim) and its halo ghosts *)
Definition cell_stencil (dim : Z) (C : celldata) (i : Z) : list (pt * source) :=
  let nodes := firstn (Z.to_nat (dim + 1)) (nthZ [] (cd_nodes C) i) in
  map (fun c => (nthZ vzero (cd_centerc C) c, Scell c)) (counted (nthZ [] (cd_cellnid C) i)) ++
  (if dim =? 2 then flat_map (fun k => let l := nthZ 0 (cd_old C) k in if is_x l || is_y l then
       map (fun c => (image l (nthZ vzero (cd_centerc C) c) (nthZ vzero (cd_shift C) c), Scell c)) (counted (nthZ [] (cd_periodic C) k)) else []) nodes
   else []) ++
  map (fun h => (nthZ vzero (cd_centerh C) h, Shalo h)) (counted (nthZ [] (cd_halonid C) i)) ++
  flat_map (fun k => (if nthZ 0 (cd_old C) k <=? 2 * dim then map (fun e => (g_pt e, Sghost (g_last e))) (real_ghosts (nthZ [] (cd_ghost C) k)) else []) ++
                     map (fun e => (g_pt e, Shaloghost (g_last e))) (real_ghosts (nthZ [] (cd_haloghost C) k))) nodes.
Record wf_celldata (dim : Z) (C : celldata) (nbnodes nf nhg : Z) : Prop := {
  wc_dim : dim = 2 \/ dim = 3;
  wc_len : zlen (cd_cellnid C) = zlen (cd_centerc C) /\ zlen (cd_halonid C) = zlen (cd_centerc C) /\ zlen (cd_nodes C) = zlen (cd_centerc C) /\
           zlen (cd_periodicnid C) = zlen (cd_centerc C) /\ zlen (cd_shift C) = zlen (cd_centerc C) /\ zlen (cd_periodic C) = nbnodes /\
           zlen (cd_old C) = nbnodes /\ zlen (cd_ghost C) = nbnodes /\ zlen (cd_haloghost C) = nbnodes;
  wc_rows : forall i, 0 <= i < zlen (cd_centerc C) ->
            row_ok (zlen (cd_centerc C)) (nthZ [] (cd_cellnid C) i) /\ row_ok (zlen (cd_centerh C)) (nthZ [] (cd_halonid C) i) /\
            row_ok (zlen (cd_centerc C)) (nthZ [] (cd_periodicnid C) i) /\
            dim + 1 <= zlen (nthZ [] (cd_nodes C) i) /\ forall k, In k (firstn (Z.to_nat (dim + 1)) (nthZ [] (cd_nodes C) i)) -> 0 <= k < nbnodes;
  wc_nodes : forall k, 0 <= k < nbnodes -> row_ok (zlen (cd_centerc C)) (nthZ [] (cd_periodic C) k) /\
            ghost_row_ok nf (nthZ [] (cd_ghost C) k) /\ ghost_row_ok nhg (nthZ [] (cd_haloghost C) k) }.

(** the point on the other side of a face and where its value is stored, by the label of the face *)
Definition face_other (dim : Z) (G : facedata) (i : Z) : pt * source :=
  let l := nthZ 0 (fd_name G) i in let c := nthZ 0 (nthZ [] (fd_cellid G) i) 1 in let h := nthZ 0 (fd_halofid G) i in
  if l =? 0 then (nthZ vzero (fd_centerc G) c, Scell c)
  else if is_periodic dim l then (image l (nthZ vzero (fd_centerc G) c) (nthZ vzero (fd_shift G) c), Scell c)
  else if l =? 10 then (nthZ vzero (fd_centerh G) h, Shalo h)
  else (nthZ vzero (fd_ghost G) i, Sghost i).
Definition face_left (G : facedata) (i : Z) : pt := nthZ vzero (fd_centerc G) (nthZ 0 (nthZ [] (fd_cellid G) i) 0).
Definition left_value (G : facedata) (W : values) (i : Z) : R := nthZ 0%R (w_c W) (nthZ 0 (nthZ [] (fd_cellid G) i) 0).

(** face tables: one row per face, existing cells, nodes and halos *)
Record wf_facedata (dim : Z) (G : facedata) : Prop := {
  wfa_dim : dim = 2 \/ dim = 3;
  wfa_len : zlen (fd_nodes G) = zlen (fd_cellid G) /\ zlen (fd_ghost G) = zlen (fd_cellid G) /\ zlen (fd_name G) = zlen (fd_cellid G) /\
            zlen (fd_normal G) = zlen (fd_cellid G) /\ zlen (fd_halofid G) = zlen (fd_cellid G) /\ zlen (fd_shift G) = zlen (fd_centerc G);
  wfa_face : forall i, 0 <= i < zlen (fd_cellid G) ->
    let l := nthZ 0 (fd_name G) i in let row := nthZ [] (fd_cellid G) i in
    zlen row = 2 /\ 0 <= nthZ 0 row 0 < zlen (fd_centerc G) /\
    zlen (nthZ [] (fd_nodes G) i) = dim /\ (forall k, In k (nthZ [] (fd_nodes G) i) -> 0 <= k < zlen (fd_vertex G)) /\
    (l = 0 \/ is_periodic dim l = true -> 0 <= nthZ 0 row 1 < zlen (fd_centerc G)) /\
    (l = 10 -> 0 <= nthZ 0 (fd_halofid G) i < zlen (fd_centerh G)) }.
(** the lists of faces handed to the gradient agree with the labels *)
Definition lists_ok (dim : Z) (G : facedata) (L : facelists) : Prop :=
  let face i := 0 <= i < zlen (fd_cellid G) in let l i := nthZ 0 (fd_name G) i in
  (forall i, In i (fl_inner L) -> face i /\ l i = 0) /\ (forall i, In i (fl_periodic L) -> face i /\ is_periodic dim (l i) = true) /\
  (forall i, In i (fl_halo L) -> face i /\ l i = 10) /\
  (forall i, In i (fl_dirichlet L) \/ In i (fl_neumann L) -> face i /\ l i <> 0 /\ is_periodic dim (l i) = false /\ l i <> 10).
Definition listed (L : facelists) (i : Z) : Prop :=
  In i (fl_inner L) \/ In i (fl_periodic L) \/ In i (fl_halo L) \/ In i (fl_dirichlet L) \/ In i (fl_neumann L).
(** in 3D the normal is half the cross product of two edges, in the order of the face's nodes (established by C23) *)
Definition normal_of_nodes (dim : Z) (G : facedata) (i : Z) : Prop :=
  dim = 3 -> match map (at_node (fd_vertex G)) (nthZ [] (fd_nodes G) i) with
             | [a; b; c] => forall w, vdot (nthZ vzero (fd_normal G) i) w = (/ 2 * det (vsub b a) (vsub c a) w)%R
             | _ => False end.

(** limiter: the value on the other side of face f seen from cell i *)
Definition across (B : limdata) (W : values) (i f : Z) : R :=
  let l := nthZ 0 (ld_name B) f in let c0 := nthZ 0 (nthZ [] (ld_cellid B) f) 0 in let c1 := nthZ 0 (nthZ [] (ld_cellid B) f) 1 in
  if (l =? 0) || (10 <? l) then nthZ 0%R (w_c W) (if c0 =? i then c1 else c0)
  else if l =? 10 then nthZ 0%R (w_halo W) (nthZ 0 (ld_halofid B) f) else nthZ 0%R (w_ghost W) f.
Record wf_limdata (dim : Z) (B : limdata) (W : values) : Prop := {
  wl_dim : dim = 2 \/ dim = 3;
  wl_len : zlen (ld_faceid B) = zlen (w_c W) /\ zlen (ld_centerc B) = zlen (w_c W) /\ zlen (ld_name B) = zlen (ld_cellid B) /\
           zlen (ld_halofid B) = zlen (ld_cellid B) /\ zlen (ld_centerf B) = zlen (ld_cellid B) /\ zlen (w_ghost W) = zlen (ld_cellid B);
  wl_face : forall i f, 0 <= i < zlen (w_c W) -> In f (nthZ [] (ld_faceid B) i) ->
    let l := nthZ 0 (ld_name B) f in let row := nthZ [] (ld_cellid B) f in
    0 <= f < zlen (ld_cellid B) /\ zlen row = 2 /\ 0 <= nthZ 0 row 0 < zlen (w_c W) /\
    ((l = 0 \/ 10 < l) /\ 0 <= nthZ 0 row 1 < zlen (w_c W) /\ (nthZ 0 row 0 = i \/ nthZ 0 row 1 = i) \/
     1 <= l <= 2 * dim /\ nthZ 0 row 0 = i \/
     l = 10 /\ nthZ 0 row 0 = i /\ 0 <= nthZ 0 (ld_halofid B) f < zlen (w_halo W));
  wl_row : forall i, 0 <= i < zlen (w_c W) -> zlen (nthZ [] (ld_faceid B) i) = dim + 1 }.
(** increment of the linear reconstruction of cell i from its centre to the centre of face f *)
Definition increment (dim : Z) (B : limdata) (grads : list pt) (i f : Z) : R :=
  let g := nthZ vzero grads i in let a := nthZ vzero (ld_centerf B) f in let b := nthZ vzero (ld_centerc B) i in
  (px g * (px a - px b) + py g * (py a - py b) + if dim =? 2 then 0 else pz g * (pz a - pz b))%R.
(** the thresholds below which the code does not limit: 1e-8 in 2D, 1e-10 in 3D *)
Definition threshold (dim : Z) : R := (if dim =? 2 then / 10 ^ 8 else / 10 ^ 10)%R.
