(** * Spec_linsys: vocabulary for C38-C40, C50. *)
From Verif Require Import Py Model_part Model_conn Spec_conn Model_geom Spec_geom Model_interp Spec_interp Model_bc Model_linsys.
From Verif Require Spec_bc.
From Coq Require Import Reals.
Open Scope Z_scope.

(** ** the tables *)
Definition left_cell (S : lsys) (f : Z) : Z := nthZ 0 (nthZ [] (fd_cellid (sy_G S)) f) 0.
Definition right_cell (S : lsys) (f : Z) : Z := nthZ 0 (nthZ [] (fd_cellid (sy_G S)) f) 1.
Definition nodes_of (S : lsys) (f : Z) : list Z := nthZ [] (fd_nodes (sy_G S)) f.
Definition nbcells (S : lsys) : Z := zlen (nd_centerc (sy_N S)).
Definition nbhalos (S : lsys) : Z := zlen (nd_centerh (sy_N S)).
Definition nbnodes (S : lsys) : Z := zlen (nd_vertex (sy_N S)).
Definition global_cell (S : lsys) (c : Z) : Z := nthZ 0 (sy_l2g S) c.
Definition global_halo (S : lsys) (h : Z) : Z := nthZ 0 (nthZ [] (sy_hext S) h) 0.
(** the label of the node is the label of a boundary with a Dirichlet condition *)
Definition dirichlet_node (S : lsys) (k : Z) : Prop := In (nthZ 0 (nd_old (sy_N S)) k) (sy_bcd S).
Definition periodic_neighbours (S : lsys) (k : Z) : Z := row_count (nthZ [] (nd_periodic (sy_N S)) k).

(** the tables belong together: every number refers to an existing cell, halo, node, and every node belongs to a cell *)
Record wf_lsys (dim : Z) (S : lsys) (L : sylists) (nf nhg : Z) : Prop := {
  wy_N : wf_nodedata dim (sy_N S) nf nhg;
  wy_nv : variables dim (sy_N S) = Ok (sy_nv S);
  wy_G : wf_facedata dim (sy_G S);
  wy_D : face_gradient_info dim (sy_G S) = Ok (sy_D S);
  wy_same : fd_centerc (sy_G S) = nd_centerc (sy_N S) /\ fd_centerh (sy_G S) = nd_centerh (sy_N S) /\ zlen (fd_vertex (sy_G S)) = nbnodes S;
  wy_len : zlen (sy_vol S) = nbcells S /\ zlen (sy_l2g S) = nbcells S /\ zlen (sy_hext S) = nbhalos S;
  wy_hext : forall h, 0 <= h < nbhalos S -> 0 < zlen (nthZ [] (sy_hext S) h);
  wy_rows : forall k, 0 <= k < nbnodes S -> 0 < row_count (nthZ [] (nd_cellid (sy_N S)) k) /\
              row_ok (nbhalos S) (nthZ [] (nd_haloid (sy_N S)) k) /\ row_ok (nbcells S) (nthZ [] (nd_periodic (sy_N S)) k);
  wy_ghost : forall k e, 0 <= k < nbnodes S -> In e (real_ghosts (nthZ [] (nd_ghost (sy_N S)) k)) -> 0 <= g_cell e < nbcells S;
  wy_haloghost : forall k e, 0 <= k < nbnodes S -> In e (real_ghosts (nthZ [] (nd_haloghost (sy_N S)) k)) -> 0 <= g_cell e < nbhalos S;
  wy_inner : forall f, In f (sl_inner L) -> 0 <= f < zlen (fd_cellid (sy_G S)) /\ (nthZ 0 (fd_name (sy_G S)) f = 0 \/ is_periodic dim (nthZ 0 (fd_name (sy_G S)) f) = true);
  wy_halo : forall f, In f (sl_halo L) -> 0 <= f < zlen (fd_cellid (sy_G S)) /\ nthZ 0 (fd_name (sy_G S)) f = 10;
  wy_dir : forall f, In f (sl_dir L) -> 0 <= f < zlen (fd_cellid (sy_G S)) /\
              let l := nthZ 0 (fd_name (sy_G S)) f in l <> 0 /\ is_periodic dim l = false /\ l <> 10 }.

(** ** the triplet arrays *)
Definition triplets (dim : Z) (S : lsys) (L : sylists) (b : list entry) : res (list entry) :=
  if dim =? 2 then get_triplet_2d S L b else do r <- get_triplet_3d S L b; ret (fst r).

(** ** the operator *)
(** row r of the matrix applied to the vector x: entries with equal row and column add up; [None] when an entry is not finite *)
Definition row_sum (es : list entry) (r : Z) (x : Z -> R) : option R :=
  fold_right (fun e s => let '(i, j, v) := e in if i =? r then oadd (omul v (Some (x j))) s else s) (Some 0%R) es.

(** a field x in global numbering as seen by the interpolation: cells and halo cells carry x, and the ghost of a boundary
    face carries the value of the cell of that face *)
Definition samples (S : lsys) (x : Z -> R) (W : values) : Prop :=
  (forall c, 0 <= c < nbcells S -> nthZ 0%R (w_c W) c = x (global_cell S c)) /\
  (forall h, 0 <= h < nbhalos S -> nthZ 0%R (w_halo W) h = x (global_halo S h)) /\
  (forall k e, 0 <= k < nbnodes S -> In e (real_ghosts (nthZ [] (nd_ghost (sy_N S)) k)) -> nthZ 0%R (w_ghost W) (g_last e) = x (global_cell S (g_cell e))) /\
  (forall k e, 0 <= k < nbnodes S -> In e (real_ghosts (nthZ [] (nd_haloghost (sy_N S)) k)) -> nthZ 0%R (w_haloghost W) (g_last e) = x (global_halo S (g_cell e))).

(** the values at the two sides of a face: the left cell, and the right cell, the halo cell or the mirrored Dirichlet value *)
Definition value_left (S : lsys) (x : Z -> R) (f : Z) : R := x (global_cell S (left_cell S f)).
Definition value_right (S : lsys) (L : sylists) (B : bord) (x : Z -> R) (f : Z) (r : R) : Prop :=
  (In f (sl_inner L) -> r = x (global_cell S (right_cell S f))) /\
  (In f (sl_halo L) -> r = x (global_halo S (nthZ 0 (fd_halofid (sy_G S)) f))) /\
  (In f (sl_dir L) -> r = (2 * nthZ 0 (pb_face B) f - value_left S x f)%R).
(** the vector that reproduces the difference of the two side values along the line joining the two centres and the
    differences of the node values along the face: the gradient of the diamond scheme *)
Definition diamond_gradient (dim : Z) (G : facedata) (f : Z) (wl wr : R) (vn : Z -> R) (g : pt) : Prop :=
  gradient dim g /\ vdot g (vsub (fst (face_other dim G f)) (face_left G f)) = (wr - wl)%R /\
  forall a b, In a (nthZ [] (fd_nodes G) f) -> In b (nthZ [] (fd_nodes G) f) ->
    vdot g (vsub (at_node (fd_vertex G) a) (at_node (fd_vertex G) b)) = (vn a - vn b)%R.
(** sum over the faces of cell i of the flux that leaves the cell: the flux of a face leaves its left cell and enters its right cell *)
Definition leaving (S : lsys) (L : sylists) (flux : Z -> R) (i : Z) : R :=
  (rsum (map (fun f => (if (left_cell S f =? i)%Z then flux f else 0) - (if (right_cell S f =? i)%Z then flux f else 0)) (sl_inner L)) +
   rsum (map (fun f => if (left_cell S f =? i)%Z then flux f else 0) (sl_halo L)) +
   rsum (map (fun f => if (left_cell S f =? i)%Z then flux f else 0) (sl_dir L)))%R.

(** boundary data: one value per node and per face; the nodes of a Dirichlet face have ghosts *)
Definition wf_bord (S : lsys) (L : sylists) (B : bord) : Prop :=
  zlen (pb_node B) = nbnodes S /\ zlen (pb_face B) = zlen (fd_cellid (sy_G S)) /\
  forall f k, In f (sl_dir L) -> In k (nodes_of S f) -> g_cell (nthZ gpad (nthZ [] (nd_ghost (sy_N S)) k) 0) <> -1.

(** the regular case: cells have a volume, two local cells have different global numbers, only nodes on a partition boundary
    (name 10) have halo neighbours, only the nodes on a periodic boundary in 2D have periodic neighbours (for 3D see
    C54_centers_refuted) and none of those is a node of a face on a partition boundary, and the two sides of each face
    of the system are different *)
Record regular (dim : Z) (S : lsys) (L : sylists) : Prop := {
  rg_vol : forall c, 0 <= c < nbcells S -> nthZ 0%R (sy_vol S) c <> 0%R;
  rg_l2g : NoDup (sy_l2g S);
  rg_halo : forall k, 0 <= k < nbnodes S -> nthZ 0 (nd_name (sy_N S)) k <> 10 ->
              row_count (nthZ [] (nd_haloid (sy_N S)) k) = 0 /\ real_ghosts (nthZ [] (nd_haloghost (sy_N S)) k) = [];
  rg_per : forall k, 0 <= k < nbnodes S -> periodic_neighbours S k <> 0 ->
              dim = 2 /\ is_periodic 2 (nthZ 0 (nd_old (sy_N S)) k) = true /\ forall f, In f (sl_halo L) -> ~ In k (nodes_of S f);
  rg_face : forall f, In f (sl_inner L) \/ In f (sl_halo L) \/ In f (sl_dir L) -> normal_of_nodes dim (sy_G S) f /\
              side (fd_vertex (sy_G S)) (nodes_of S f) (fst (face_other dim (sy_G S) f)) <> side (fd_vertex (sy_G S)) (nodes_of S f) (face_left (sy_G S) f) }.
(** the node values seen from face f: the interpolated ones; the prescribed ones at nodes with the label of a Dirichlet
    boundary, and at all nodes of a Dirichlet face.  [wn]: the result of the interpolation *)
Definition node_values (S : lsys) (L : sylists) (B : bord) (wn : list (option R)) (f : Z) (vn : Z -> R) : Prop :=
  forall k, In k (nodes_of S f) ->
    (In f (sl_dir L) -> vn k = nthZ 0%R (pb_node B) k) /\
    (In f (sl_inner L) \/ In f (sl_halo L) ->
       (dirichlet_node S k -> vn k = nthZ 0%R (pb_node B) k) /\ (~ dirichlet_node S k -> nthZ None wn k = Some (vn k))).
(** the flux of the field x through face f: the diamond gradient dotted with the normal *)
Definition diamond_flux (dim : Z) (S : lsys) (L : sylists) (B : bord) (wn : list (option R)) (x : Z -> R) (f : Z) (flux : R) : Prop :=
  exists vn g wr, node_values S L B wn f vn /\ value_right S L B x f wr /\
    diamond_gradient dim (sy_G S) f (value_left S x f) wr vn g /\ flux = vdot g (nthZ vzero (fd_normal (sy_G S)) f).

(** the faces of the system *)
Definition in_system (L : sylists) (f : Z) : Prop := In f (sl_inner L) \/ In f (sl_halo L) \/ In f (sl_dir L).
(** the interpolation gave a number at every node where the operator uses the interpolated value *)
Definition nodes_finite (S : lsys) (L : sylists) (wn : list (option R)) : Prop :=
  forall f k, In f (sl_inner L) \/ In f (sl_halo L) -> In k (nodes_of S f) -> ~ dirichlet_node S k -> nthZ None wn k <> None.
(** row i of A x - rhs: the entries of the triplet arrays for the global number of cell i, applied to x, minus position i of the local right-hand side *)
Definition residual (S : lsys) (es : list entry) (rhs : list (option R)) (x : Z -> R) (i : Z) : option R :=
  match row_sum es (global_cell S i) x, nthZ None rhs i with Some a, Some r => Some (a - r)%R | _, _ => None end.
(** sum of the normals of the faces of cell i, pointing away from it (zero by C20 when all faces of the cell are faces of the system) *)
Definition outward_normals (S : lsys) (L : sylists) (g : pt) (i : Z) : R := leaving S L (fun f => vdot g (nthZ vzero (fd_normal (sy_G S)) f)) i.

(** ** boundary data *)
(** the value a Dirichlet entry for side l prescribes at node k (at faces: Spec_bc.prescribed) *)
Definition prescribed_node (D : bcdom) (values : list (loc * bcval)) (l : loc) (k : Z) : R :=
  match lookup values l with
  | Some (VFun g) => let x := nthZ vzero (bd_vertex D) k in g (px x) (py x) (pz x)
  | Some (VNum x) => x
  | _ => 0%R
  end.
(** what the constructor of the linear system stores: at the faces and nodes labelled with a Dirichlet side the prescribed values, at the nodes labelled with a
    Neumann side 1 (these are not data: see C39, the operator uses the interpolated values there, and C53_corner_refuted), elsewhere 0 *)
Definition boundary_data (D : bcdom) (bc : list (loc * bctype)) (vs : list (loc * bcval)) (B : bord) : Prop :=
  zlen (pb_face B) = zlen (bd_name D) /\ zlen (pb_node B) = bd_nbnodes D /\
  (forall l t f, In (l, t) bc -> 0 <= f < zlen (bd_name D) -> nthZ 0 (bd_name D) f = Spec_bc.side_label l ->
     nthZ 0%R (pb_face B) f = match t with BDirichlet => Spec_bc.prescribed D vs [] l BDirichlet f | _ => 0%R end) /\
  (forall f, 0 <= f < zlen (bd_name D) -> (forall l, In l (Spec_bc.sides (bd_dim D)) -> nthZ 0 (bd_name D) f <> Spec_bc.side_label l) -> nthZ 0%R (pb_face B) f = 0%R) /\
  (forall l t k, In (l, t) bc -> 0 <= k < bd_nbnodes D -> nthZ 0 (bd_oldname D) k = Spec_bc.side_label l ->
     nthZ 0%R (pb_node B) k = match t with BDirichlet => prescribed_node D vs l k | BNeumann => 1%R | _ => 0%R end) /\
  (forall k, 0 <= k < bd_nbnodes D -> (forall l, In l (Spec_bc.sides (bd_dim D)) -> nthZ 0 (bd_oldname D) k <> Spec_bc.side_label l) -> nthZ 0%R (pb_node B) k = 0%R).

(** ** the gradient of the solution *)
(** the value taken at node k seen from face i: prescribed at nodes labelled with a Dirichlet boundary and at all nodes of a Dirichlet face, else the interpolated one *)
Definition sol_node (S : lsys) (B : bord) (w_node : list R) (L : facelists) (i k : Z) (v : R) : Prop :=
  (In i (fl_dirichlet L) \/ dirichlet_node S k -> v = nthZ 0%R (pb_node B) k) /\ (~ In i (fl_dirichlet L) -> ~ dirichlet_node S k -> v = nthZ 0%R w_node k).
(** the value on the other side of face i *)
Definition sol_right (dim : Z) (S : lsys) (B : bord) (W : values) (L : facelists) (i : Z) (v : R) : Prop :=
  (In i (fl_dirichlet L) -> v = (2 * nthZ 0 (pb_face B) i - left_value (sy_G S) W i)%R) /\ (~ In i (fl_dirichlet L) -> v = value_at W (snd (face_other dim (sy_G S) i))).
Definition vneg (g : pt) : pt := P3 (- px g) (- py g) (- pz g).
