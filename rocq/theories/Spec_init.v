(** * Spec_init: the fields the programs start from (C92), as functions of the position. *)
From Coq Require Import Reals.
From Verif Require Import Py Model_part Spec_part Model_conn Spec_conn Model_geom Spec_geom Model_domain Spec_domain Model_parallel Spec_parallel Model_sw Model_init.
Open Scope Z_scope.

Definition square (x : R) : R := (x * x)%R.
(** squares of distances to (x0, y0) in the plane, and to (x0, y0, z0) *)
Definition distance2 (x0 y0 : R) (p : pt) : R := (square (px p - x0) + square (py p - y0))%R.
Definition distance3 (x0 y0 z0 : R) (p : pt) : R := (distance2 x0 y0 p + square (pz p - z0))%R.
(** a hill of height a and width s on a ground b; d: square of the distance from its top *)
Definition hill (a s b d : R) : R := (b + a * exp (- (d / square s)))%R.
(** a potential that falls by k per unit of x, zero at x = x0 *)
Definition slope_from (k x0 : R) (p : pt) : R := (k * (x0 - px p))%R.

(** the fields *)
Definition density_2d (p : pt) : R := hill 5 (1/20) 1 (distance2 (1/5) (1/4) p).
Definition density_3d (p : pt) : R := hill 5 (1/20) 1 (distance3 (1/5) (1/4) (9/20) p).
Definition electrons_2d (p : pt) : R := hill (10 ^ 16) (1/100) (10 ^ 9) (distance2 (1/5) (1/4) p).
Definition electrons_3d (p : pt) : R := hill (10 ^ 16) (1/100) (10 ^ 12) (distance3 (1/5) (1/4) (1/4) p).
(** still water behind and before a dam at x = 1/2, no tracer, flat bottom *)
Definition dam_break (p : pt) : q5 := {| q_h := if Rlt_dec (px p) (1/2) then 5 else 2; q_hu := 0; q_hv := 0; q_hc := 0; q_Z := 0 |}%R.

(** the field of the centres of the cells of the mesh *)
Definition at_centres {V} (dim : Z) (cells : list (list Z)) (nodes : list pt) (f : pt -> V) (c : Z) : V := f (cell_centre dim nodes (cell cells c)).
(** an array of every rank, one entry per cell, whatever its contents *)
Definition allocated {A} (SIZE : Z) (st : setting) (arrays : list A) (k : A -> list R) : Prop :=
  zlen arrays = SIZE /\ forall r a, 0 <= r < SIZE -> get arrays r = Ok a -> zlen (k a) = zlen (dm_loctoglob (domain_of (se_domains st) r)).
