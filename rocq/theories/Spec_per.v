(** * Spec_per: meshes with periodic sides, and the first-order upwind scheme on them (C90). *)
From Coq Require Import Reals Permutation.
From Verif Require Import Py Model_part Spec_part Model_label Model_conn Spec_conn Model_geom Spec_geom Model_halo Model_periodic Spec_interp Spec_periodic Model_bc Spec_bc Model_domain Spec_domain.
From Verif Require Spec_run.
Open Scope Z_scope.

Section Mesh.
Context (dim : Z) (cells : list (list Z)) (nodes : list pt) (labels : list Z).
Definition flabel (F : list Z) : Z := face_label (priority dim) (map (nthZ 0 labels) F).
Definition centre_of (F : list Z) : pt := barycentre (map (at_node nodes) F).
(** F lies on the plane where coordinate a is 0, G is its translate on the plane where it is L *)
Definition translate (a : axis) (L : R) (F G : list Z) : Prop :=
  exists G', Permutation G' G /\ Forall2 (fun k k' => across a L (at_node nodes k) (at_node nodes k')) F G'.
(** The mesh is periodic in direction a: it lies between the planes 0 and L; every boundary facet with the low label has a translate with the
    high label and conversely, and no boundary facet has the plain label of either side; the labelled nodes are paired too; rounding to single
    precision keeps 0 and L and does not make the centres of two facets (or two nodes) of a side equal. *)
Record periodic_direction (f32 : R -> R) (a : axis) (L : R) : Prop := {
  pd_box : forall p, In p nodes -> (0 <= coord a p <= L)%R;
  pd_zero : f32 0%R = 0%R;
  pd_exact : f32 L = L;
  pd_some : exists c F, only_cell dim cells c F /\ flabel F = low_label a;
  pd_low : forall c F, only_cell dim cells c F -> flabel F = low_label a -> exists c' G, only_cell dim cells c' G /\ flabel G = high_label a /\ translate a L F G;
  pd_high : forall c G, only_cell dim cells c G -> flabel G = high_label a -> exists c' F, only_cell dim cells c' F /\ flabel F = low_label a /\ translate a L F G;
  pd_distinct : forall c F c' G, only_cell dim cells c F -> only_cell dim cells c' G -> flabel F = flabel G -> flabel F = low_label a \/ flabel F = high_label a ->
    same_rounded f32 (centre_of F) (centre_of G) -> F = G;
  pd_plain : forall c F, only_cell dim cells c F -> 11 * flabel F <> low_label a /\ 11 * flabel F <> high_label a;
  pd_nodes : paired f32 a L nodes labels }.
(** no boundary facet and no node has a label of direction a *)
Definition plain_direction (a : axis) : Prop :=
  (forall c F, only_cell dim cells c F -> flabel F <> low_label a /\ flabel F <> high_label a) /\ absent a labels.
(** A mesh as in C68 ([valid_mesh]), each direction of which may be periodic. *)
Record periodic_mesh (f32 : R -> R) : Prop := {
  pm_mesh : wf_mesh dim (zlen nodes) cells;
  pm_nonflat : forall c, iscell cells c -> nonflat dim nodes (cell cells c);
  pm_proper : proper dim nodes cells;
  pm_labels : zlen labels = zlen nodes /\ forall l, In l labels -> 0 <= l <= 2 * dim \/ is_periodic dim l = true;
  pm_boundary : forall c F, only_cell dim cells c F -> 1 <= flabel F <= 2 * dim \/ is_periodic dim (flabel F) = true;
  pm_directions : forall a, In a (axes dim) -> plain_direction a \/ exists L, periodic_direction f32 a L }.

(** the label of the opposite side (0: the side is not periodic), and the direction *)
Definition partner_label (l : Z) : Z :=
  if l =? 11 then 22 else if l =? 22 then 11 else if l =? 33 then 44 else if l =? 44 then 33 else if l =? 55 then 66 else if l =? 66 then 55 else 0.
Definition axis_of (l : Z) : axis := if is_x l then AX else if is_y l then AY else AZ.
(** the same point up to coordinate a *)
Definition same_but (a : axis) (p q : pt) : bool :=
  let p' := set_coord a p 0%R in let q' := set_coord a q 0%R in
  if Req_EM_T (px p') (px q') then if Req_EM_T (py p') (py q') then if Req_EM_T (pz p') (pz q') then true else false else false else false.
(** the boundary facet G faces F: it has the opposite label and its centre differs in the coordinate of this direction only *)
Definition faces (F G : list Z) : bool := (flabel G =? partner_label (flabel F)) && same_but (axis_of (flabel F)) (centre_of F) (centre_of G).
(** the cell on the other side of the facet F of cell c: across the facet, or across the domain *)
Definition across_domain (F : list Z) : option (Z * list Z) := find (fun e => faces F (snd e)) (Spec_run.boundary_facets cells).
Definition next_cell (c : Z) (F : list Z) : option Z :=
  match Spec_run.beside cells c F with Some d => Some d | None => option_map fst (across_domain F) end.

(** boundary conditions: each side once; periodic exactly where the mesh is; dirichlet (with a value) and neumann elsewhere, dirichlet first *)
Definition per_bc_valid (bc : list (loc * bctype)) (vs : list (loc * bcval)) : Prop :=
  NoDup (map fst bc) /\
  (forall l t, In (l, t) bc -> In l (sides dim) /\ (t = BDirichlet \/ t = BNeumann \/ t = BPeriodic) /\
     (t = BPeriodic <-> exists c F, only_cell dim cells c F /\ flabel F = periodic_label l)) /\
  (forall l, In l (sides dim) -> In l (map fst bc)) /\ dirichlet_first bc /\ forall l, In (l, BDirichlet) bc -> lookup vs l <> None.

(** the scheme of Spec_run with the cell across the domain beyond a periodic facet *)
Definition per_beyond (bc : list (loc * bctype)) (vs : list (loc * bcval)) (X : Z -> R) (c : Z) (F : list Z) : R :=
  match next_cell c F with Some d => X d | None => Spec_run.boundary_value dim nodes labels bc vs F (X c) end.
Definition per_leaving (bc : list (loc * bctype)) (vs : list (loc * bcval)) (U : pt) (X : Z -> R) (c : Z) (F : list Z) : R :=
  let q := vdot U (Spec_run.outward cells nodes c F) in (q * if Rle_dec 0 q then X c else per_beyond bc vs X c F)%R.
Definition per_step (bc : list (loc * bctype)) (vs : list (loc * bcval)) (U : pt) (dt : R) (X : Z -> R) (c : Z) : R :=
  (X c - dt / Spec_run.measure_of cells nodes c * rsum (map (per_leaving bc vs U X c) (Spec_run.facets (cell cells c))))%R.
Fixpoint per_run (n : nat) (bc : list (loc * bctype)) (vs : list (loc * bcval)) (U : pt) (dt : R) (X : Z -> R) : Z -> R :=
  match n with O => X | S n => per_step bc vs U dt (per_run n bc vs U dt X) end.
(** the boundary facets that are not periodic *)
Definition open_facets : list (Z * list Z) := filter (fun e => partner_label (flabel (snd e)) =? 0) (Spec_run.boundary_facets cells).
End Mesh.
