(** * Spec_domain: the meshes a rank is given, and what the tables of a constructed domain must satisfy for the rest of the code (C66-C68). *)
From Coq Require Import Reals Permutation Sorted.
From Verif Require Import Py Model_part Model_label Model_conn Spec_conn Model_geom Spec_geom Model_halo Spec_halo Model_periodic Model_interp Spec_interp Model_fvm Spec_fvm
  Model_bc Spec_bc Model_linsys Spec_linsys Model_domain.
From Verif Require Model_sw Spec_sw.
Open Scope Z_scope.

(** halo cell h of the rank has the nodes of F *)
Definition cut_by (K : rankdata) (F : list Z) (h : Z) : Prop := halo_has (rk_node K) (rk_ext K) F h.
(** F is a facet of cell c and of no other cell of the rank *)
Definition only_cell (dim : Z) (nodeid : list (list Z)) (c : Z) (F : list Z) : Prop :=
  has_facet dim nodeid c F /\ forall c', has_facet dim nodeid c' F -> c' = c.

(** What a rank is given.
    A simplicial mesh without periodic boundaries: cells are not flat, two cells lie on opposite sides of their common facet, every node belongs
    to a cell; the nodes have the labels 0 (inside) to 2*dim, and each facet of the boundary of the whole mesh gets one of the labels 1 .. 2*dim
    from its nodes (C15).
    With several ranks: global numbers for nodes and cells, and halo cells with their centres; at least one facet is a facet of a halo cell (see
    C22_no_halo_face_refuted), such a facet belongs to one cell of the rank and the halo cell is on the other side; the halo ghosts received for
    the nodes of such facets are numbered 0 .. rk_nhg-1, belong to halo cells and come with a face centre each. *)
Record valid_rank (dim size : Z) (nodeid : list (list Z)) (vertex : list pt) (namen : list Z) (K : rankdata) : Prop := {
  vr_mesh : wf_mesh dim (zlen vertex) nodeid;
  vr_cells : 0 < zlen nodeid;
  vr_used : forall k, 0 <= k < zlen vertex -> exists c, iscell nodeid c /\ In k (cell nodeid c);
  vr_nonflat : forall c, iscell nodeid c -> nonflat dim vertex (cell nodeid c);
  vr_proper : proper dim vertex nodeid;
  vr_labels : zlen namen = zlen vertex /\ forall l, In l namen -> 0 <= l <= 2 * dim;
  vr_boundary : forall c F, only_cell dim nodeid c F -> (forall h, ~ cut_by K F h) -> 1 <= face_label (priority dim) (map (nthZ 0 namen) F) <= 2 * dim;
  vr_size : 1 <= size;
  vr_alone : size = 1 -> rk_ext K = [];
  vr_numbers : 1 < size -> zlen (rk_node K) = zlen vertex /\ NoDup (rk_node K) /\ wf_halos dim (rk_ext K) /\ exists c F h, has_facet dim nodeid c F /\ cut_by K F h;
  vr_cellnumbers : zlen (rk_cell K) = zlen nodeid /\ NoDup (rk_cell K);
  vr_centers : zlen (rk_center K) = zlen (rk_ext K);
  vr_cut : forall c F h x, has_facet dim nodeid c F -> cut_by K F h -> In x (cell nodeid c) -> ~ In x F ->
             only_cell dim nodeid c F /\ (side vertex F (at_node vertex x) * side vertex F (nthZ vzero (rk_center K) h) < 0)%R;
  vr_info : zlen (rk_info K) = zlen vertex /\ forall k, 0 <= k < zlen vertex -> zlen (nthZ [] (rk_info K) k) = zlen (nthZ [] (rk_hg K) k);
  vr_haloghosts : zlen (rk_hg K) = zlen vertex /\ 0 <= rk_nhg K /\
    forall k e, 0 <= k < zlen vertex -> In e (nthZ [] (rk_hg K) k) -> 0 <= g_last e < rk_nhg K /\ 0 <= g_cell e < zlen (rk_ext K) /\
      exists c F h, has_facet dim nodeid c F /\ In k F /\ cut_by K F h }.

(** What the tables of a domain must satisfy: the hypotheses of the theorems about the kernels, for the arguments the code calls them with. *)
Definition on_boundary (D : domain) (f : Z) : Prop := In f (ls_boundary (dom_lists D)).
(** the point on the other side of face f and the centre of its cell are on different sides of the line / plane of the face *)
Definition two_sided (D : domain) (f : Z) : Prop :=
  let s := side (dm_vertex D) (nthZ [] (dm_facenodes D) f) in (s (fst (face_other (dm_dim D) (dom_face D) f)) * s (face_left (dom_face D) f) < 0)%R.
Record consistent (dim : Z) (D : domain) : Prop := {
  cs_dim : dm_dim D = dim;
  cs_nodes : wf_nodedata dim (dom_node D) (zlen (dm_cellid D)) (dm_nhg D) /\ variables dim (dom_node D) = Ok (dm_nodevar D);
  cs_cells : wf_celldata dim (dom_cell D) (zlen (dm_vertex D)) (zlen (dm_cellid D)) (dm_nhg D) /\ forall c, 0 <= c < zlen (dm_center D) -> row_count (nthZ [] (dm_periodicnid D) c) = 0;
  cs_faces : wf_facedata dim (dom_face D) /\ face_gradient_info dim (dom_face D) = Ok (dm_diamond D) /\
             forall f, 0 <= f < zlen (dm_cellid D) -> normal_of_nodes dim (dom_face D) f /\ two_sided D f;
  cs_facelists : forall dir neu, (forall f, In f dir \/ In f neu -> on_boundary D f) ->
     lists_ok dim (dom_face D) {| fl_inner := ls_inner (dom_lists D); fl_periodic := ls_periodic (dom_lists D); fl_halo := ls_halo (dom_lists D); fl_dirichlet := dir; fl_neumann := neu |};
  cs_limiter : forall W, wf_values W (zlen (dm_center D)) (zlen (dm_cellid D)) (zlen (dm_centerh D)) (dm_nhg D) -> wf_limdata dim (dom_lim D) W;
  cs_fv : wf_fvdata dim (dom_fv D) /\ wf_lists dim (dom_fv D) (dom_lists D);
  cs_each_face_once : Permutation (all_faces (dom_lists D)) (range (zlen (dm_cellid D)));
  cs_lists_faces : lists_faces (dom_fv D) (dom_lists D) (dm_faceid D);
  cs_closed : forall c, 0 <= c < zlen (dm_center D) -> closed_cell (dom_fv D) (dom_lists D) c;
  cs_timestep : forall vel, zlen vel = zlen (dm_center D) -> wf_timestep dim vel (dm_normal D) (dm_mesure D) (dm_volume D) (dm_faceid D);
  cs_bc : wf_bcdom (dom_bc D);
  cs_system : forall bcd dir, (forall f, In f dir -> on_boundary D f) ->
     wf_lsys dim (dom_sys D bcd) (dom_syslists D dir) (zlen (dm_cellid D)) (dm_nhg D) /\ regular dim (dom_sys D bcd) (dom_syslists D dir) /\
     forall pn pf, zlen pn = zlen (dm_vertex D) -> zlen pf = zlen (dm_cellid D) -> wf_bord (dom_sys D bcd) (dom_syslists D dir) {| pb_node := pn; pb_face := pf |};
  cs_triangles : dim = 2 -> Spec_sw.wf_swcells (dom_fv D) (dom_lists D) (dom_sw D);
  (* the nodes of a triangle are listed counterclockwise, and its faces in the same order *)
  cs_order : dim = 2 -> forall c, 0 <= c < zlen (dm_center D) -> exists a b d, nthZ [] (dm_cellnodes D) c = [a; b; d] /\
     (0 < turn (at_node (dm_vertex D) a) (at_node (dm_vertex D) b) (at_node (dm_vertex D) d))%R /\
     let nodes_of j := nthZ [] (dm_facenodes D) (nthZ 0 (nthZ [] (dm_faceid D) c) j) in
     Permutation (nodes_of 0) [a; b] /\ Permutation (nodes_of 1) [b; d] /\ Permutation (nodes_of 2) [d; a] }.

(** the vector orthogonal to the facet F as long as F is large, up to its sign *)
Definition area_vector (vertex : list pt) (F : list Z) : pt :=
  match map (at_node vertex) F with
  | [a; b] => P3 (py a - py b) (px b - px a) 0
  | [a; b; c] => let u := vsub b a in let v := vsub c a in vscal (1 / 2) (P3 (py u * pz v - pz u * py v) (pz u * px v - px u * pz v) (px u * py v - py u * px v))
  | _ => vzero
  end.
(** w is the area vector of the facet F of the cell with nodes r that points out of the cell *)
Definition outward_of (vertex : list pt) (r F : list Z) (w : pt) : Prop :=
  (w = area_vector vertex F \/ w = vscal (-1) (area_vector vertex F)) /\
  forall x p, In x r -> ~ In x F -> In p F -> (vdot w (vsub (at_node vertex x) (at_node vertex p)) < 0)%R.
(** centre and measure of a cell (in 2D the third coordinate is not used) *)
Definition cell_centre (dim : Z) (vertex : list pt) (r : list Z) : pt :=
  let b := barycentre (map (at_node vertex) r) in if dim =? 2 then P3 (px b) (py b) 0 else b.
Definition cell_measure (vertex : list pt) (r : list Z) : R :=
  match map (at_node vertex) r with [a; b; c] => (Rabs (turn a b c) / 2)%R | [a; b; c; d] => (Rabs (det4 a b c d) / 6)%R | _ => 0%R end.

(** What the tables of a domain must say: they describe the mesh the rank was given. *)
Definition isface (D : domain) (f : Z) : Prop := 0 <= f < zlen (dm_facenodes D).
(** the row of face f lists the nodes of the facet F *)
Definition face_is (D : domain) (f : Z) (F : list Z) : Prop := isface D f /\ Permutation (nthZ [] (dm_facenodes D) f) F.
(** the three kinds of faces *)
Inductive face_kind (dim : Z) (nodeid : list (list Z)) (namen : list Z) (K : rankdata) (D : domain) (f : Z) (F : list Z) : Prop :=
| Between (a b : Z) (two : a <> b) (sides : forall c, has_facet dim nodeid c F <-> c = a \/ c = b) (notcut : forall h, ~ cut_by K F h)
    (row : nthZ [] (dm_cellid D) f = [a; b]) (name : nthZ 0 (dm_name D) f = 0)
| Outside (a : Z) (one : only_cell dim nodeid a F) (notcut : forall h, ~ cut_by K F h)
    (row : nthZ [] (dm_cellid D) f = [a; -1]) (name : nthZ 0 (dm_name D) f = face_label (priority dim) (map (nthZ 0 namen) F))
| OnCut (a : Z) (one : only_cell dim nodeid a F) (iscut : cut_by K F (nthZ 0 (dm_halofid D) f))
    (row : nthZ [] (dm_cellid D) f = [a; -10]) (name : nthZ 0 (dm_name D) f = 10).
Record faithful (dim size : Z) (nodeid : list (list Z)) (vertex : list pt) (namen : list Z) (K : rankdata) (D : domain) : Prop := {
  fa_nodes : dm_vertex D = vertex /\ dm_old D = namen /\ dm_loctoglob D = rk_cell K /\ dm_nodeglob D = (if size =? 1 then range (zlen vertex) else rk_node K);
  fa_sizes : zlen (dm_cellnodes D) = zlen nodeid /\ zlen (dm_center D) = zlen nodeid /\ zlen (dm_volume D) = zlen nodeid /\ zlen (dm_faceid D) = zlen nodeid /\ zlen (dm_cellid D) = zlen (dm_facenodes D) /\
             zlen (dm_centerh D) = zlen (rk_ext K);
  fa_cells : forall c, iscell nodeid c -> Permutation (cell (dm_cellnodes D) c) (cell nodeid c) /\ (0 < nthZ 0%R (dm_volume D) c)%R;
  fa_faces : forall f, isface D f -> exists c F, has_facet dim nodeid c F /\ face_is D f F;
  fa_facets : forall c F, has_facet dim nodeid c F -> exists f, face_is D f F /\ forall f', face_is D f' F -> f' = f;
  fa_rows : forall c f F, iscell nodeid c -> face_is D f F -> In f (nthZ [] (dm_faceid D) c) <-> incl F (cell nodeid c);
  fa_kinds : forall f c F, has_facet dim nodeid c F -> face_is D f F -> face_kind dim nodeid namen K D f F;
  fa_node_cells : forall k, 0 <= k < zlen vertex -> forall c, In c (counted (nthZ [] (dm_nodecell D) k)) <-> iscell nodeid c /\ In k (cell nodeid c);
  fa_cell_cells : forall c, iscell nodeid c -> forall x, In x (counted (nthZ [] (dm_cellnid D) c)) <-> iscell nodeid x /\ x <> c /\ exists k, In k (cell nodeid c) /\ In k (cell nodeid x);
  fa_node_labels : forall k, 0 <= k < zlen vertex -> (nthZ 0 (dm_nodename D) k = 10 <-> exists c F h, has_facet dim nodeid c F /\ In k F /\ cut_by K F h) /\
     (nthZ 0 (dm_nodename D) k <> 10 -> nthZ 0 (dm_nodename D) k = nthZ 0 namen k);
  (* the halo cells around the nodes of cut faces *)
  fa_node_halos : forall k, 0 <= k < zlen vertex -> forall h, In h (counted (nthZ [] (dm_nodehalo D) k)) <->
     nthZ 0 (dm_nodename D) k = 10 /\ ishalo (rk_ext K) h /\ In (nthZ 0 (rk_node K) k) (halo_nodes (rk_ext K) h);
  fa_cell_halos : forall c, iscell nodeid c -> NoDup (counted (nthZ [] (dm_cellhalo D) c)) /\ forall h, In h (counted (nthZ [] (dm_cellhalo D) c)) <->
     exists k, In k (cell nodeid c) /\ nthZ 0 (dm_nodename D) k = 10 /\ ishalo (rk_ext K) h /\ In (nthZ 0 (rk_node K) k) (halo_nodes (rk_ext K) h);
  (* geometry *)
  fa_cell_geometry : forall c, iscell nodeid c -> nthZ vzero (dm_center D) c = cell_centre dim vertex (cell nodeid c) /\ nthZ 0%R (dm_volume D) c = cell_measure vertex (cell nodeid c);
  fa_face_geometry : forall f F, face_is D f F -> outward_of vertex (cell nodeid (nthZ 0 (nthZ [] (dm_cellid D) f) 0)) F (nthZ vzero (dm_normal D) f) /\
     nthZ 0%R (dm_mesure D) f = vlen (nthZ vzero (dm_normal D) f) /\ nthZ vzero (dm_fcenter D) f = barycentre (map (at_node vertex) F);
  (* ghosts: the mirror images of the cells at the faces of the boundary, listed at the nodes of the face *)
  fa_face_ghosts : forall f, isface D f -> 1 <= nthZ 0 (dm_name D) f <= 2 * dim ->
     mirror vertex (nthZ [] (dm_facenodes D) f) (nthZ vzero (dm_center D) (nthZ 0 (nthZ [] (dm_cellid D) f) 0)) (nthZ vzero (dm_fghost D) f);
  fa_node_ghosts : forall k, 0 <= k < zlen vertex -> let row := real_ghosts (nthZ [] (dm_nodeghost D) k) in
     map g_last row = filter (fun f => (1 <=? nthZ 0 (dm_name D) f) && (nthZ 0 (dm_name D) f <=? 2 * dim) && mem k (nthZ [] (dm_facenodes D) f)) (range (zlen (dm_facenodes D))) /\
     forall e, In e row -> let f := g_last e in g_pt e = nthZ vzero (dm_fghost D) f /\ g_cell e = nthZ 0 (nthZ [] (dm_cellid D) f) 0 /\ g_name e = nthZ 0 (dm_name D) f;
  fa_halo_ghosts : forall k, 0 <= k < zlen vertex -> real_ghosts (nthZ [] (dm_haloghost D) k) = nthZ [] (rk_hg K) k /\
     exists pad pad', nthZ [] (dm_hginfo D) k = nthZ [] (rk_info K) k ++ pad /\ nthZ [] (dm_haloghost D) k = nthZ [] (rk_hg K) k ++ pad';
  (* no cell is listed twice around a node or a cell *)
  fa_once : (forall k, 0 <= k < zlen vertex -> NoDup (counted (nthZ [] (dm_nodecell D) k)) /\ NoDup (counted (nthZ [] (dm_nodehalo D) k))) /\
     forall c, iscell nodeid c -> NoDup (counted (nthZ [] (dm_cellnid D) c)) }.
