(** * Spec_poisson3: the gradient of the solution on the mesh (C76). *)
From Coq Require Import Reals.
From Verif Require Import Py Model_part Spec_part Model_label Model_conn Spec_conn Model_geom Spec_geom Model_interp Spec_interp Model_bc Spec_bc Spec_bc3 Model_domain Spec_domain Spec_lsq Spec_parallel Spec_run Spec_run2 Spec_poisson.
Open Scope Z_scope.

Section Slope.
Context (dim : Z) (cells : list (list Z)) (nodes : list pt) (labels : list Z) (bc : list (loc * bctype)) (vs : list (loc * bcval)).
(** the value at a node: the prescribed one where there is one, otherwise the interpolated one N *)
Definition shown_value (N : Z -> R) (g : Z) : R := match node_fixed nodes labels bc vs g with Some y => y | None => N g end.
(** s is the slope at the facet F of cell c.  Along the facet it takes the values of the nodes (at the facets of a dirichlet side: of those nodes that have a
    prescribed value); across a facet between two cells it takes the values of the cells; at a facet of the boundary its normal component times the area is the flux
    prescribed there: [dirichlet_flux] *)
Definition solution_slope (X N : Z -> R) (c : Z) (F : list Z) (s : pt) : Prop :=
  gradient dim s /\
  (forall a b, In a F -> In b F -> beside cells c F <> None \/ facet_fixed dim nodes labels bc vs F = None \/ (node_fixed nodes labels bc vs a <> None /\ node_fixed nodes labels bc vs b <> None) ->
     vdot s (vsub (at_node nodes b) (at_node nodes a)) = (shown_value N b - shown_value N a)%R) /\
  match beside cells c F with
  | Some d => vdot s (vsub (centre dim cells nodes d) (centre dim cells nodes c)) = (X d - X c)%R
  | None => vdot s (outward cells nodes c F) = dirichlet_flux dim cells nodes labels bc vs X c F
  end.
(** all the nodes of the dirichlet facets of the boundary have a prescribed value *)
Definition sides_closed : Prop := forall c F g, In (c, F) (boundary_facets cells) -> facet_fixed dim nodes labels bc vs F <> None -> In g F -> node_fixed nodes labels bc vs g <> None.
End Slope.
