(** * Spec_poisson: the discrete Poisson problem (div grad u = f) on a mesh, without ranks, tables or numberings (C74, C75).  X : values on the cells. *)
From Coq Require Import Reals.
From Verif Require Import Py Model_part Spec_part Model_label Model_conn Spec_conn Model_geom Spec_geom Model_interp Spec_interp Model_bc Spec_bc Spec_bc3 Model_domain Spec_domain Spec_lsq Spec_parallel Spec_run Spec_run2.
Open Scope Z_scope.

Section Problem.
Context (dim : Z) (cells : list (list Z)) (nodes : list pt) (labels : list Z) (bc : list (loc * bctype)) (vs : list (loc * bcval)).
(** the value prescribed at the point p when it has the label l of a dirichlet side; None on other sides and inside *)
Definition fixed (l : Z) (p : pt) : option R :=
  match find (fun e => side_label (fst e) =? l) bc with Some (s, BDirichlet) => Some (prescribed_at vs s p) | _ => None end.
Definition node_fixed (g : Z) : option R := fixed (nthZ 0 labels g) (at_node nodes g).
Definition facet_fixed (F : list Z) : option R := fixed (face_label (priority dim) (map (nthZ 0 labels) F)) (facet_centre nodes F).
(** v is the value at node g: the prescribed one, or the value there of the best affine fit to the values of the cells around it (behind a boundary facet
    the value of its cell is repeated) *)
Definition node_value (X : Z -> R) (g : Z) (v : R) : Prop :=
  match node_fixed g with Some y => v = y | None => nodal_value dim cells nodes labels [] [] X g v end.
Definition node_values (X N : Z -> R) : Prop := forall c g, iscell cells c -> In g (cell cells c) -> node_value X g (N g).
(** s is the slope at the facet F between the cells c and d: along the facet it takes the node values N, across it the values of the two cells *)
Definition slope_between (X N : Z -> R) (c d : Z) (F : list Z) (s : pt) : Prop :=
  gradient dim s /\ (forall a b, In a F -> In b F -> vdot s (vsub (at_node nodes b) (at_node nodes a)) = (N b - N a)%R) /\
  vdot s (vsub (centre dim cells nodes d) (centre dim cells nodes c)) = (X d - X c)%R.
(** q is the flux of grad u out of cell c through its facet F: between two cells the slope times the outward area vector; at a dirichlet facet the
    difference quotient along the normal; none through the other boundary facets *)
Definition gradient_flux (X N : Z -> R) (c : Z) (F : list Z) (q : R) : Prop :=
  let n := outward cells nodes c F in
  match beside cells c F with
  | Some d => exists s, slope_between X N c d F s /\ q = vdot s n
  | None => match facet_fixed F with
            | Some y => q = ((y - X c) * vdot n n / vdot n (vsub (facet_centre nodes F) (centre dim cells nodes c)))%R
            | None => q = 0%R
            end
  end.
(** y is the discrete Laplacian of X in cell c: the sum of the fluxes out of the cell, per volume *)
Definition laplacian (X : Z -> R) (c : Z) (y : R) : Prop :=
  exists N Q, node_values X N /\ (forall F, In F (facets (cell cells c)) -> gradient_flux X N c F (Q F)) /\
    y = (/ measure_of cells nodes c * rsum (map Q (facets (cell cells c))))%R.
(** what leaves through a boundary facet F of the cell c *)
Definition dirichlet_flux (X : Z -> R) (c : Z) (F : list Z) : R :=
  let n := outward cells nodes c F in
  match facet_fixed F with
  | Some y => ((y - X c) * vdot n n / vdot n (vsub (facet_centre nodes F) (centre dim cells nodes c)))%R
  | None => 0%R
  end.
(** X solves div grad u = f *)
Definition poisson (f X : Z -> R) : Prop := forall c, iscell cells c -> laplacian X c (f c).
End Problem.
