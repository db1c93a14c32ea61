(** * Spec_run7: a streamer (electrons and ions in the field of their charge) on a mesh without ranks, tables or numberings (C83-C85).
    X, Y: the electron density on the cells; XI, YI: the ion density; P: the potential on the cells; E c F: the field at the facet F of cell c.  Constants and laws: [Spec_streamer]. *)
From Coq Require Import Reals Rpower.
From Verif Require Import Py Model_part Spec_part Model_label Model_conn Spec_conn Model_geom Spec_geom Model_interp Spec_interp Model_bc Spec_bc Model_domain Spec_domain Spec_lsq Spec_parallel Spec_run Spec_run2
  Spec_poisson Spec_poisson2 Spec_poisson3 Spec_streamer Spec_run6.
From Verif Require Model_linsys Spec_linsys.
Open Scope Z_scope.

(** the drift velocity of the electrons in the field e: against the field, with the drift speed *)
Definition drift (e : pt) : pt := vscal (- (drift_speed (vlen e / N_gas) / vlen e)) e.
(** ionisation: pairs produced per electron and unit of length, divided by the density of the gas, in the reduced field r *)
Definition ionisation (r : R) : R :=
  if Rle_dec r 0 then 0%R
  else if Rle_dec r (15 / 10000000000000000) then (6619 / 100000000000000000000 * exp (- (5593 / 1000000000000000000) / r))%R
  else (2 / 10000000000000000 * exp (- (7248 / 1000000000000000000) / r))%R.
(** pairs produced per unit of volume and time in the field e, the electrons having the velocity u and the density x *)
Definition pairs (e u : pt) (x : R) : R := (ionisation (vlen e / N_gas) * vlen u * x * N_gas)%R.

Section Streamer.
Context (dim : Z) (cells : list (list Z)) (nodes : list pt) (labels : list Z).
(** the time step: the largest one with this condition on the mean velocities of the cells; cells whose mean field is zero do not count (see C61_zero_field_refuted) *)
Definition streamer_cfl (E : Z -> list Z -> pt) (cfl dt : R) : Prop :=
  (dt <= 1000000)%R /\ forall c, iscell cells c -> let e := mean_velocity dim cells E c in let u := mean_velocity dim cells (fun c F => drift (E c F)) c in
    e <> vzero -> (dt * full_speed cells nodes u (P3 (electron_diffusivity e u) 0 0) c <= cfl * measure_of cells nodes c)%R.
Definition largest_streamer (E : Z -> list Z -> pt) (cfl dt : R) : Prop := streamer_cfl E cfl dt /\ forall dt', streamer_cfl E cfl dt' -> (dt' <= dt)%R.
(** pairs produced in a cell *)
Definition produced (E : Z -> list Z -> pt) (X : Z -> R) (c : Z) : R := pairs (mean_velocity dim cells E c) (mean_velocity dim cells (fun c F => drift (E c F)) c) (X c).

Context (bc : list (loc * bctype)) (vs : list (loc * bcval)).
(** electrons that enter cell c through its facet F in a unit of time: drift and diffusion (the same along all the axes) *)
Definition electrons_entering (order : Z) (E : Z -> list Z -> pt) (X : Z -> R) (S : Z -> pt) (L : Z -> R) (G : Z -> list Z -> pt) (c : Z) (F : list Z) : R :=
  let D := electron_diffusivity (E c F) (drift (E c F)) in entering dim cells nodes labels bc vs order (drift (E c F)) (P3 D D D) X S L G c F.
(** a step of length dt in the field E, from the densities X, XI to Y, YI *)
Definition streamer_step (order : Z) (E : Z -> list Z -> pt) (dt : R) (X XI Y YI : Z -> R) : Prop :=
  exists (S : Z -> pt) (L N : Z -> R) (G : Z -> list Z -> pt), reconstruction dim cells nodes labels bc vs X S L N G /\
    forall c, iscell cells c ->
      Y c = (X c + dt * (rsum (map (electrons_entering order E X S L G c) (facets (cell cells c))) / measure_of cells nodes c + produced E X c))%R /\
      YI c = (XI c + dt * produced E X c)%R.
(** the source of the potential *)
Definition charge_of (X XI : Z -> R) (c : Z) : R := poisson_rhs (X c) (XI c).
(** n turns of the loop, from the densities X0, XI0 at time 0 to Y, YI at time t; bcp, vsp: the boundary conditions of the potential.
    In every turn a solver gives the potential P: a discrete potential of the charge, if there is one *)
Inductive streamer_flow (bcp : list (loc * bctype)) (vsp : list (loc * bcval)) (order : Z) (cfl tfinal : R) (X0 XI0 : Z -> R) : nat -> R -> (Z -> R) -> (Z -> R) -> Prop :=
| streamer_begin Y YI : (forall c, iscell cells c -> Y c = X0 c /\ YI c = XI0 c) -> streamer_flow bcp vsp order cfl tfinal X0 XI0 0 0 Y YI
| streamer_next n t X XI P E dt Y YI : streamer_flow bcp vsp order cfl tfinal X0 XI0 n t X XI -> (t < tfinal)%R ->
    ((exists P', poisson dim cells nodes labels bcp vsp (charge_of X XI) P') -> poisson dim cells nodes labels bcp vsp (charge_of X XI) P) ->
    velocity_of dim cells nodes labels bcp vsp P E -> largest_streamer E cfl dt -> streamer_step order E dt X XI Y YI ->
    streamer_flow bcp vsp order cfl tfinal X0 XI0 (Datatypes.S n) (t + dt) Y YI.
(** for every charge there is exactly one discrete potential *)
Definition one_potential (bcp : list (loc * bctype)) (vsp : list (loc * bcval)) : Prop := forall f, (exists P, poisson dim cells nodes labels bcp vsp f P) /\
  forall P P', poisson dim cells nodes labels bcp vsp f P -> poisson dim cells nodes labels bcp vsp f P' -> forall c, iscell cells c -> P c = P' c.
End Streamer.

(** ** A first turn of first order in which nothing has been exchanged and no ghosts computed (see C83_first_turn).
    The drift into a cell is computed as if all the cells of other ranks and everything outside the mesh were empty *)
Definition alone (epart : list Z) (X : Z -> R) (r c : Z) : R := if owner epart c =? r then X c else 0%R.
Definition empty_outside (dim : Z) : list (loc * bctype) := map (fun l => (l, BDirichlet)) (sides dim).
Definition blind_step (dim : Z) (cells : list (list Z)) (nodes : list pt) (labels : list Z) (bc : list (loc * bctype)) (vs : list (loc * bcval)) (epart : list Z) (order : Z) (E : Z -> list Z -> pt) (dt : R) (X XI Y YI : Z -> R) : Prop :=
  exists (S : Z -> pt) (L N : Z -> R) (G : Z -> list Z -> pt), reconstruction dim cells nodes labels bc vs X S L N G /\ forall c, iscell cells c ->
      let seen := alone epart X (owner epart c) in let D F := electron_diffusivity (E c F) (drift (E c F)) in
      let enters := (fun F => diffused cells nodes (P3 (D F) (D F) (D F)) (G c F) c F - carried dim cells nodes labels (empty_outside dim) [] order (drift (E c F)) seen (fun _ => vzero) (fun _ => 0%R) c F)%R in
      Y c = (X c + dt * (rsum (map enters (facets (cell cells c))) / measure_of cells nodes c + produced dim cells E X c))%R /\ YI c = (XI c + dt * produced dim cells E X c)%R.
