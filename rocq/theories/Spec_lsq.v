(** * Spec_lsq: least-squares fits of an affine function, for C24 and C25 on arbitrary data. *)
From Verif Require Import Py Model_part Model_conn Spec_conn Model_geom Spec_geom Model_interp Spec_interp.
From Coq Require Import Reals.
Open Scope Z_scope.

(** data: points with a value each.  Sum of the squared errors of the affine function with value c at the origin and gradient g *)
Definition misfit (l : list (pt * R)) (c : R) (g : pt) : R :=
  rsum (map (fun q => ((affine c g (fst q) - snd q) * (affine c g (fst q) - snd q))%R) l).
(** (c, g) is the affine function of smallest misfit, and the only one *)
Definition best_fit (dim : Z) (l : list (pt * R)) (c : R) (g : pt) : Prop :=
  gradient dim g /\ (forall c' g', gradient dim g' -> (misfit l c g <= misfit l c' g')%R) /\
  (forall c' g', gradient dim g' -> (misfit l c' g' <= misfit l c g)%R -> c' = c /\ g' = g).
(** the same among the affine functions with value w at the point x, which are determined by their gradient *)
Definition misfit_from (x : pt) (w : R) (l : list (pt * R)) (g : pt) : R :=
  rsum (map (fun q => let e := (w + vdot g (vsub (fst q) x) - snd q)%R in (e * e)%R) l).
Definition best_slope (dim : Z) (x : pt) (w : R) (l : list (pt * R)) (g : pt) : Prop :=
  gradient dim g /\ (forall g', gradient dim g' -> (misfit_from x w l g <= misfit_from x w l g')%R) /\
  (forall g', gradient dim g' -> (misfit_from x w l g' <= misfit_from x w l g)%R -> g' = g).
