(** * Spec_run9: the turns of the Darcy and streamer programs one after the other, and which of them are saved (C94). *)
From Coq Require Import Reals.
From Verif Require Import Py Model_part Spec_part Model_label Model_conn Spec_conn Model_geom Spec_geom Model_interp Spec_interp Model_bc Spec_bc Model_domain Spec_domain Spec_lsq Spec_parallel Spec_run Spec_run2
  Spec_poisson Spec_poisson2 Spec_poisson3 Spec_run6 Spec_run7 Model_save Spec_save Spec_run8.
Open Scope Z_scope.

(** dt fits T times 50 times into tfinal (T the whole part) *)
Definition fits (tfinal dt : R) (T : Z) : Prop := (IZR T * (50 * dt) <= tfinal < (IZR T + 1) * (50 * dt))%R.
(** the numbers, from 1, of the turns with a save, when turn k is saved if it is the first or k is a multiple of the k-th of the numbers [tots] *)
Definition saving_turns_by (tots : list Z) : list Z := filter (fun k => (k =? 1) || (k mod nthZ 1 tots (k - 1) =? 0)) (range2 1 (zlen tots + 1)).

Section Turns.
Context (dim : Z) (cells : list (list Z)) (nodes : list pt) (labels : list Z) (bc : list (loc * bctype)) (vs : list (loc * bcval)) (bcp : list (loc * bctype)) (vsp : list (loc * bcval)).
(** turns from number n, time t and density X on: the time step and the new density of each, and the time after the last; compare [darcy_flow] *)
Inductive darcy_turns (spread : bool) (order : Z) (K : pt) (cfl tfinal : R) (P : nat -> Z -> R) : nat -> R -> (Z -> R) -> list (R * (Z -> R)) -> R -> Prop :=
| dt_end n t X : darcy_turns spread order K cfl tfinal P n t X [] t
| dt_turn n t X V dt Y l t' : (t < tfinal)%R -> velocity_of dim cells nodes labels bcp vsp (P n) V -> (0 < dt)%R -> largest_driven dim cells nodes V K cfl dt ->
    driven_step dim cells nodes labels bc vs order V (if spread then K else vzero) dt X Y ->
    darcy_turns spread order K cfl tfinal P (Datatypes.S n) (t + dt)%R Y l t' -> darcy_turns spread order K cfl tfinal P n t X ((dt, Y) :: l) t'.
(** turns from time t and the densities X of electrons and XI of ions on: of each the time step, the potential, and the densities after it; compare [streamer_flow] *)
Record turn_made := { tm_dt : R; tm_P : Z -> R; tm_ne : Z -> R; tm_ni : Z -> R }.
Inductive streamer_turns (order : Z) (cfl tfinal : R) : R -> (Z -> R) -> (Z -> R) -> list turn_made -> R -> Prop :=
| st_end t X XI : streamer_turns order cfl tfinal t X XI [] t
| st_turn t X XI m E l t' : (t < tfinal)%R -> 
    ((exists P, poisson dim cells nodes labels bcp vsp (charge_of X XI) P) -> poisson dim cells nodes labels bcp vsp (charge_of X XI) (tm_P m)) ->
    velocity_of dim cells nodes labels bcp vsp (tm_P m) E -> (0 < tm_dt m)%R -> largest_streamer dim cells nodes E cfl (tm_dt m) ->
    streamer_step dim cells nodes labels bc vs order E (tm_dt m) X XI (tm_ne m) (tm_ni m) ->
    streamer_turns order cfl tfinal (t + tm_dt m)%R (tm_ne m) (tm_ni m) l t' -> streamer_turns order cfl tfinal t X XI (m :: l) t'.
(** what is written after a turn: the electrons at the nodes, or the potential on the cells *)
Definition streamer_field (at_node : bool) (m : turn_made) (fld : field) : Prop :=
  if at_node then written_field dim cells nodes labels bc vs true (tm_ne m) fld else fld = OnCells (tm_P m).
End Turns.
