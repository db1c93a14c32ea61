(** * Spec_run8: what the test programs leave in the directory results (C93). *)
From Coq Require Import Reals.
From Verif Require Import Py Model_part Spec_part Model_conn Spec_conn Model_geom Spec_geom Model_interp Spec_interp Model_bc Spec_bc Model_domain Spec_domain Model_parallel Spec_parallel Model_run Spec_run2.
From Verif Require Import Model_sw Spec_run4 Model_save Spec_save.
Open Scope Z_scope.

(** the shallow-water evolution with the states after all its turns, in order (compare [evolution]) *)
Inductive course (cells : list (list Z)) (nodes : list pt) (labels : list Z) (B : flow) (order : Z) (E : friction_etc) (cfl tfinal : R) : R -> R -> (Z -> q5) -> list (Z -> q5) -> R -> Prop :=
| co_done time dt W : (tfinal <= time)%R -> course cells nodes labels B order E cfl tfinal time dt W [] time
| co_turn time dt W W1 dt1 l t : (time < tfinal)%R -> sw_step cells nodes labels B order E dt W W1 -> longest cells nodes E cfl W1 dt1 ->
    course cells nodes labels B order E cfl tfinal (time + dt)%R dt1 W1 l t -> course cells nodes labels B order E cfl tfinal time dt W (W1 :: l) t.
(** the numbers, from 1 to n, of the turns with a save: the first, and every tot-th *)
Definition saving_turns (tot n : Z) : list Z := filter (fun k => (k =? 1) || (k mod tot =? 0)) (range2 1 (n + 1)).
(** what is written when the variable holds X: X itself, or its interpolation to the nodes *)
Definition written_field (dim : Z) (cells : list (list Z)) (nodes : list pt) (labels : list Z) (bc : list (loc * bctype)) (vs : list (loc * bcval)) (at_node : bool) (X : Z -> R) (fld : field) : Prop :=
  if at_node then exists N, fld = OnNodes N /\ forall c g, iscell cells c -> In g (cell cells c) -> nodal_value dim cells nodes labels bc vs X g (N g) else fld = OnCells X.
(** the directory contains these fields, under the numbers 0, 1, 2, ..., and nothing else *)
Definition directory (dim SIZE : Z) (cells : list (list Z)) (nodes : list pt) (flds : list field) (F : files) : Prop :=
  forall m, (0 <= m < zlen flds -> let fld := nthZ (OnCells (fun _ => 0%R)) flds m in saved dim SIZE cells nodes fld m F /\ (1 < SIZE -> indexed SIZE fld m F)) /\
            (~ 0 <= m < zlen flds -> fs_pvtu F m = None /\ forall r, fs_vtu F r m = None).
