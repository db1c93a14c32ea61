(** * Spec_run2: interpolation to the nodes, gradients, limiter and the second-order scheme with diffusion on a mesh, without ranks, tables or
    numberings (C70-C73).  X : the values on the cells. *)
From Coq Require Import Reals.
From Verif Require Import Py Model_part Spec_part Model_label Model_conn Spec_conn Model_geom Spec_geom Model_interp Spec_interp Model_bc Spec_bc Model_domain Spec_domain Spec_lsq Spec_parallel Spec_run.
Open Scope Z_scope.

Section Scheme.
Context (dim : Z) (cells : list (list Z)) (nodes : list pt) (labels : list Z) (bc : list (loc * bctype)) (vs : list (loc * bcval)).
Definition centre (c : Z) : pt := cell_centre dim nodes (cell cells c).
(** the mirror image of x in the line / plane of the facet F *)
Definition reflection (F : list Z) (x : pt) : pt :=
  let n := area_vector nodes F in vsub x (vscal (2 * vdot n (vsub x (at_node nodes (hd 0 F))) / vdot n n) n).
(** the cells with node g, and the facets of the boundary with node g (each with its cell) *)
Definition touching (g : Z) : list Z := filter (fun c => mem g (cell cells c)) (range (zlen cells)).
Definition boundary_at (g : Z) : list (Z * list Z) := filter (fun p => mem g (snd p)) (boundary_facets cells).
(** what a facet of the boundary contributes: the mirror image of its cell with the value beyond the facet *)
Definition mirrored (X : Z -> R) (p : Z * list Z) : pt * R :=
  (reflection (snd p) (centre (fst p)), boundary_value dim nodes labels bc vs (snd p) (X (fst p))).
Definition sample (X : Z -> R) (c : Z) : pt * R := (centre c, X c).
(** the data around a node: the cells there and the mirror images behind the boundary there *)
Definition around_node (X : Z -> R) (g : Z) : list (pt * R) := map (sample X) (touching g) ++ map (mirrored X) (boundary_at g).
Definition node_points (g : Z) : list pt := map centre (touching g) ++ map (fun p => reflection (snd p) (centre (fst p))) (boundary_at g).
(** v is the value at node g of the best affine fit to the data around it *)
Definition nodal_value (X : Z -> R) (g : Z) (v : R) : Prop := exists c0 s, best_fit dim (around_node X g) c0 s /\ v = affine c0 s (at_node nodes g).

(** the data around a cell: the cells sharing a node with it, and the mirror images at each of its nodes *)
Definition neighbours (c : Z) : list Z := filter (fun d => negb (d =? c) && existsb (fun k => mem k (cell cells c)) (cell cells d)) (range (zlen cells)).
Definition around_cell (X : Z -> R) (c : Z) : list (pt * R) := map (sample X) (neighbours c) ++ flat_map (fun k => map (mirrored X) (boundary_at k)) (cell cells c).
Definition cell_points (c : Z) : list pt := map centre (neighbours c) ++ flat_map (fun k => map (fun p => reflection (snd p) (centre (fst p))) (boundary_at k)) (cell cells c).
(** s is the best slope at cell c *)
Definition cell_slope (X : Z -> R) (c : Z) (s : pt) : Prop := best_slope dim (centre c) (X c) (around_cell X c) s.

(** the limiter: the largest number up to 1 for which the reconstruction at the centres of the facets stays between values found in the cell and beyond
    its facets, where it changes by at least [threshold] *)
Definition facet_centre (F : list Z) : pt := barycentre (map (at_node nodes) F).
Definition rise (s : pt) (c : Z) (F : list Z) : R := vdot s (vsub (facet_centre F) (centre c)).
Definition seen_from (X : Z -> R) (c : Z) (y : R) : Prop := y = X c \/ exists F, In F (facets (cell cells c)) /\ y = value_beyond dim cells nodes labels bc vs X c F.
Definition within_range (X : Z -> R) (c : Z) (y : R) : Prop := exists lo hi, seen_from X c lo /\ seen_from X c hi /\ (lo <= y <= hi)%R.
Definition admissible (X : Z -> R) (s : pt) (c : Z) (p : R) : Prop :=
  (p <= 1)%R /\ forall F, In F (facets (cell cells c)) -> (threshold dim <= Rabs (rise s c F))%R -> within_range X c (X c + p * rise s c F).
Definition limiter (X : Z -> R) (s : pt) (c : Z) (p : R) : Prop := admissible X s c p /\ forall p', admissible X s c p' -> (p' <= p)%R.

(** the gradient at the facet F of cell c: it takes the node values along the facet, and the values of the cell and beyond the facet across it *)
Definition point_beyond (c : Z) (F : list Z) : pt := match beside cells c F with Some d => centre d | None => reflection F (centre c) end.
Definition facet_slope (X N : Z -> R) (c : Z) (F : list Z) (s : pt) : Prop :=
  gradient dim s /\ (forall a b, In a F -> In b F -> vdot s (vsub (at_node nodes b) (at_node nodes a)) = (N b - N a)%R) /\
  vdot s (vsub (point_beyond c F) (centre c)) = (value_beyond dim cells nodes labels bc vs X c F - X c)%R.

(** nodes between two ranks: a facet of a dirichlet side there gets the label of that side from the node (see C35_cut_corner_refuted) *)
Definition corners_whole (epart : list Z) : Prop :=
  forall g a b c F l, iscell cells a -> iscell cells b -> In g (cell cells a) -> In g (cell cells b) -> owner epart a <> owner epart b ->
    In (c, F) (boundary_facets cells) -> In g F -> In (l, BDirichlet) bc -> side_label l = face_label (priority dim) (map (nthZ 0 labels) F) ->
    nthZ 0 labels g = side_label l.
(** the fits are unique: the points around every node and every cell span the space *)
Definition spanned : Prop :=
  (forall c g, iscell cells c -> In g (cell cells c) -> spans dim (node_points g)) /\ (forall c, iscell cells c -> spans_from dim (centre c) (cell_points c)).

(** ** The step with reconstruction and diffusion *)
(** the value cell c gives at the centre of its facet F; S, P: slopes and limiters; first order: order = 1, second order: order = 2 *)
Definition reconstructed (order : Z) (X : Z -> R) (S : Z -> pt) (P : Z -> R) (c : Z) (F : list Z) : R := (X c + IZR (order - 1) * P c * rise (S c) c F)%R.
Definition carried (order : Z) (U : pt) (X : Z -> R) (S : Z -> pt) (P : Z -> R) (c : Z) (F : list Z) : R :=
  let q := vdot U (outward cells nodes c F) in
  (q * if Rle_dec 0 q then reconstructed order X S P c F
       else match beside cells c F with Some d => reconstructed order X S P d F | None => boundary_value dim nodes labels bc vs F (X c) end)%R.
(** what enters cell c through F by diffusion: K times the slope s at F, along the axes *)
Definition diffused (K s : pt) (c : Z) (F : list Z) : R := vdot (P3 (px K * px s) (py K * py s) (pz K * pz s)) (outward cells nodes c F).
(** slopes S and limiters P of the cells, values N at the nodes and slopes G at the facets that belong to the field X *)
Definition reconstruction (X : Z -> R) (S : Z -> pt) (P N : Z -> R) (G : Z -> list Z -> pt) : Prop :=
  (forall c, iscell cells c -> cell_slope X c (S c) /\ limiter X (S c) c (P c)) /\
  (forall c g, iscell cells c -> In g (cell cells c) -> nodal_value X g (N g)) /\
  (forall c F, iscell cells c -> In F (facets (cell cells c)) -> facet_slope X N c F (G c F)).
(** what enters cell c through its facet F in a unit of time *)
Definition entering (order : Z) (U K : pt) (X : Z -> R) (S : Z -> pt) (P : Z -> R) (G : Z -> list Z -> pt) (c : Z) (F : list Z) : R :=
  (diffused K (G c F) c F - carried order U X S P c F)%R.
(** Y is the field a step of length dt after X *)
Definition full_step (order : Z) (U K : pt) (dt : R) (X Y : Z -> R) : Prop :=
  exists (S : Z -> pt) (P N : Z -> R) (G : Z -> list Z -> pt), reconstruction X S P N G /\
    forall c, iscell cells c -> Y c = (X c + dt / measure_of cells nodes c * rsum (map (entering order U K X S P G c) (facets (cell cells c))))%R.
(** Y is the field n steps after X *)
Fixpoint full_steps (n : nat) (order : Z) (U K : pt) (dt : R) (X Y : Z -> R) : Prop :=
  match n with
  | O => forall c, iscell cells c -> Y c = X c
  | Datatypes.S n => exists X', full_steps n order U K dt X X' /\ full_step order U K dt X' Y
  end.
(** the condition on the step: advection and diffusion *)
Definition full_speed (U K : pt) (c : Z) : R :=
  rsum (map (fun F => Rabs (vdot U (outward cells nodes c F)) + (px K + py K + pz K) * vdot (outward cells nodes c F) (outward cells nodes c F) / measure_of cells nodes c)%R (facets (cell cells c))).
Definition full_cfl (U K : pt) (cfl dt : R) : Prop := (dt <= 1000000)%R /\ forall c, iscell cells c -> (dt * full_speed U K c <= cfl * measure_of cells nodes c)%R.
Definition largest_full (U K : pt) (cfl dt : R) : Prop := full_cfl U K cfl dt /\ forall dt', full_cfl U K cfl dt' -> (dt' <= dt)%R.
End Scheme.
