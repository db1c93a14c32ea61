(** * Spec_run6: transport of a density in a velocity field given at the facets, and the velocity field of a pressure, on a mesh without ranks, tables or numberings (C80-C82).
    X, Y: the density on the cells; P: the pressure on the cells; V c F: the velocity at the facet F of cell c. *)
From Coq Require Import Reals.
From Verif Require Import Py Model_part Spec_part Model_label Model_conn Spec_conn Model_geom Spec_geom Model_interp Spec_interp Model_bc Spec_bc Model_domain Spec_domain Spec_lsq Spec_parallel Spec_run Spec_run2
  Spec_poisson Spec_poisson2 Spec_poisson3.
From Verif Require Model_linsys Spec_linsys.
Open Scope Z_scope.

(** the boundary conditions of Variable(domain, BC, values); without arguments: neumann on all the sides *)
Definition open_sides (dim : Z) : list (loc * bctype) := map (fun l => (l, BNeumann)) (sides dim).
Definition conditions (dim : Z) (cond : option (list (loc * bctype) * list (loc * bcval))) : list (loc * bctype) := match cond with Some c => fst c | None => open_sides dim end.
Definition given_values (cond : option (list (loc * bctype) * list (loc * bcval))) : list (loc * bcval) := match cond with Some c => snd c | None => [] end.

Section Darcy.
Context (dim : Z) (cells : list (list Z)) (nodes : list pt) (labels : list Z).
(** V is the velocity field of the pressure P: minus its gradient at the facets.  [bc], [vs]: boundary conditions of the pressure *)
Definition velocity_of (bc : list (loc * bctype)) (vs : list (loc * bcval)) (P : Z -> R) (V : Z -> list Z -> pt) : Prop :=
  exists N, (forall c k, iscell cells c -> In k (cell cells c) -> nodal_value dim cells nodes labels bc vs P k (N k)) /\
    forall c F, iscell cells c -> In F (facets (cell cells c)) -> solution_slope dim cells nodes labels bc vs P N c F (Spec_linsys.vneg (V c F)).
(** the mean of the velocities at the facets of a cell *)
Definition mean_velocity (V : Z -> list Z -> pt) (c : Z) : pt := vscal (/ IZR (dim + 1)) (vsum (map (V c) (facets (cell cells c)))).
(** the time step: the largest one with this condition on the mean velocities and the diffusion coefficients *)
Definition driven_cfl (V : Z -> list Z -> pt) (K : pt) (cfl dt : R) : Prop :=
  (dt <= 1000000)%R /\ forall c, iscell cells c -> (dt * full_speed cells nodes (mean_velocity V c) K c <= cfl * measure_of cells nodes c)%R.
Definition largest_driven (V : Z -> list Z -> pt) (K : pt) (cfl dt : R) : Prop := driven_cfl V K cfl dt /\ forall dt', driven_cfl V K cfl dt' -> (dt' <= dt)%R.

Context (bc : list (loc * bctype)) (vs : list (loc * bcval)).
(** Y is the density a step of length dt after X: in every cell the balance of what the velocity V carries through the facets and (K) diffusion *)
Definition driven_step (order : Z) (V : Z -> list Z -> pt) (K : pt) (dt : R) (X Y : Z -> R) : Prop :=
  exists (S : Z -> pt) (L N : Z -> R) (G : Z -> list Z -> pt), reconstruction dim cells nodes labels bc vs X S L N G /\
    forall c, iscell cells c -> Y c = (X c + dt / measure_of cells nodes c * rsum (map (fun F => entering dim cells nodes labels bc vs order (V c F) K X S L G c F) (facets (cell cells c))))%R.
(** n turns of the loop, from the density X at time 0 to the density Y at time t; P k: the pressure of turn k; bcp, vsp: the boundary conditions of the pressure;
    the time step counts the diffusion K also when it is not computed (spread = false) *)
Inductive darcy_flow (bcp : list (loc * bctype)) (vsp : list (loc * bcval)) (spread : bool) (order : Z) (K : pt) (cfl tfinal : R) (P : nat -> Z -> R) (X : Z -> R) : nat -> R -> (Z -> R) -> Prop :=
| flow_start Y : (forall c, iscell cells c -> Y c = X c) -> darcy_flow bcp vsp spread order K cfl tfinal P X 0 0 Y
| flow_turn n t Y V dt Y' : darcy_flow bcp vsp spread order K cfl tfinal P X n t Y -> (t < tfinal)%R -> velocity_of bcp vsp (P n) V -> largest_driven V K cfl dt ->
    driven_step order V (if spread then K else vzero) dt Y Y' -> darcy_flow bcp vsp spread order K cfl tfinal P X (Datatypes.S n) (t + dt) Y'.
End Darcy.
(** a numerical solver that solves every system of n equations that has a solution *)
Definition solving (n : Z) (backend : list Model_linsys.entry -> list (option R) -> list R) : Prop := forall es b, (exists x, solves es b n x) -> solves es b n (backend es b).
