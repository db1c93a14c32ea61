(** * Spec_run3: a Variable of the program on all the ranks: what can happen to it, and what it holds (C70-C72). *)
From Coq Require Import Reals.
From Verif Require Import Py Model_part Spec_part Model_label Model_conn Spec_conn Model_geom Spec_geom Model_interp Spec_interp Model_comm Model_bc Spec_bc Model_domain Spec_domain Model_parallel Spec_parallel
  Model_run Spec_run Spec_run2 Model_run2.
Open Scope Z_scope.

(** the histories of a variable: var = Variable(domain, BC, values) on every rank; then any number of assignments var.cell[:] = w, of calls of update_values,
    interpolate_celltonode, compute_cell_gradient and compute_face_gradient *)
Inductive history (bc : list (loc * bctype)) (vs : list (loc * bcval)) (SIZE : Z) (st : setting) : list variable -> Prop :=
| h_created l : mapM (fun r => do D <- get (se_domains st) r; new_variable (dom_bc D) (Some bc) (Some vs)) (range SIZE) = Ok l -> history bc vs SIZE st l
| h_assigned l w l' : history bc vs SIZE st l -> (forall r, 0 <= r < SIZE -> zlen (nthZ [] w r) = zlen (dm_center (domain_of (se_domains st) r))) ->
    mapM (fun r => do v <- get l r; do x <- get w r; write_array v (va_cell v) x) (range SIZE) = Ok l' -> history bc vs SIZE st l'
| h_updated l l' : history bc vs SIZE st l -> update_values SIZE st l = Ok l' -> history bc vs SIZE st l'
| h_interpolated l l' : history bc vs SIZE st l -> interpolate_celltonode SIZE st l = Ok l' -> history bc vs SIZE st l'
| h_gradient l l' gs : history bc vs SIZE st l -> compute_cell_gradient SIZE st l = Ok (l', gs) -> history bc vs SIZE st l'
| h_face l g l' gs : history bc vs SIZE st l -> compute_face_gradient SIZE st l g = Ok (l', gs) -> history bc vs SIZE st l'.
(** the arrays var.cell of the ranks hold the field X *)
Definition holding (SIZE : Z) (st : setting) (X : Z -> R) (l : list variable) : Prop :=
  exists ws, mapM cell_of l = Ok ws /\ values_of 0%R SIZE (se_domains st) X ws.
(** the arrays var.node of the ranks hold the values N of the nodes of the mesh *)
Definition node_field (SIZE : Z) (st : setting) (N : Z -> R) (l : list variable) : Prop :=
  forall r, 0 <= r < SIZE -> let D := domain_of (se_domains st) r in
    exists v n, get l r = Ok v /\ get (va_heap v) r_node = Ok n /\ zlen n = zlen (dm_vertex D) /\ forall k, isnode_of D k -> nthZ 0%R n k = N (gnode D k).
(** the arrays of the gradient and the limiter: cells and halo cells *)
Definition cell_fields (SIZE : Z) (st : setting) (S : Z -> pt) (P : Z -> R) (gs : list gradients) : Prop :=
  zlen gs = SIZE /\ forall r, 0 <= r < SIZE -> let D := domain_of (se_domains st) r in exists G, get gs r = Ok G /\
    zlen (gr_cell G) = zlen (dm_center D) /\ zlen (gr_psi G) = zlen (dm_center D) /\ zlen (gr_halo G) = zlen (dm_hext D) /\ zlen (gr_psih G) = zlen (dm_hext D) /\
    (forall c, iscell_of D c -> nthZ vzero (gr_cell G) c = S (gcell D c) /\ nthZ 0%R (gr_psi G) c = P (gcell D c)) /\
    (forall h, ishalo_of D h -> nthZ vzero (gr_halo G) h = S (ghalo D h) /\ nthZ 0%R (gr_psih G) h = P (ghalo D h)).
(** the arrays of the gradient at the faces; G c F: at the facet F of cell c *)
Definition face_field (dim : Z) (cells : list (list Z)) (SIZE : Z) (st : setting) (G : Z -> list Z -> pt) (gs : list (list pt)) : Prop :=
  zlen gs = SIZE /\ forall r, 0 <= r < SIZE -> let D := domain_of (se_domains st) r in exists g, get gs r = Ok g /\ zlen g = zlen (dm_cellid D) /\
    forall c f F, iscell_of D c -> has_facet dim cells (gcell D c) F -> gface D f F -> nthZ vzero g f = G (gcell D c) F.
(** the conditions of C70-C73 on mesh, distribution and boundary conditions *)
Record regular (dim SIZE : Z) (cells : list (list Z)) (nodes : list pt) (labels npart0 epart : list Z) (bc : list (loc * bctype)) (vs : list (loc * bcval)) : Prop := {
  rg_mesh : valid_mesh dim cells nodes labels;
  rg_plane : dim = 2 -> planar nodes;
  rg_stars : star_connected dim cells;
  rg_spanned : spanned dim cells nodes;
  rg_split : valid_split dim SIZE cells nodes npart0 epart;
  rg_bc : bc_valid dim bc vs;
  rg_corners : corners_whole dim cells labels bc epart }.
