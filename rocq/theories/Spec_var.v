(** * Spec_var: norms of fields over some cells of the mesh. *)
From Coq Require Import Reals.
From Verif Require Import Py Model_part Spec_conn Model_geom Spec_geom Spec_interp Spec_run.
Open Scope Z_scope.
(** sum of |Q| times the measure of the cell *)
Definition norm1 (cells : list (list Z)) (nodes : list pt) (l : list Z) (Q : Z -> R) : R := rsum (map (fun c => Rabs (Q c) * measure_of cells nodes c)%R l).
(** square root of the sum of the squares of |Q| times the measure (not the square root of the integral of Q^2: the measure is squared too) *)
Definition norm2 (cells : list (list Z)) (nodes : list pt) (l : list Z) (Q : Z -> R) : R := sqrt (rsum (map (fun c => Rsqr (Rabs (Q c) * measure_of cells nodes c))%R l)).
Definition norm_of (order : Z) := if order =? 1 then norm1 else norm2.
