(** * Spec_petsc: entries per row, cells with an equation. *)
From Coq Require Import Reals.
From Verif Require Import Py Model_part Spec_conn Model_geom Spec_geom Model_bc Model_linsys Spec_run Spec_poisson.
Open Scope Z_scope.
(** number of triplets (row, column, value) in row c *)
Definition entries_in (es : list entry) (c : Z) : Z := zlen (filter (fun e => fst (fst e) =? c) es).
(** cells that have a facet with another cell behind it, or on a Dirichlet side; the others take no part in the Poisson problem *)
Definition attached (dim : Z) (cells : list (list Z)) (nodes : list pt) (labels : list Z) (bc : list (loc * bctype)) (vs : list (loc * bcval)) (c : Z) : Prop :=
  exists F, In F (facets (cell cells c)) /\ (beside cells c F <> None \/ facet_fixed dim nodes labels bc vs F <> None).
