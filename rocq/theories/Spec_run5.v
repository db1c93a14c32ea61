(** * Spec_run5: the conditions and the results of the shallow-water program (C77-C79). *)
From Coq Require Import String Reals.
From Verif Require Import Py Model_part Spec_part Model_label Model_conn Spec_conn Model_geom Spec_geom Model_interp Spec_interp Model_bc Spec_bc Model_domain Spec_domain Spec_lsq Model_parallel Spec_parallel
  Model_run Spec_run Spec_run2 Model_run2 Spec_run3.
From Verif Require Import Model_sw Model_run3 Spec_run4.
Open Scope Z_scope.

(** mesh, distribution and boundary conditions of hu and hv *)
Record sw_regular (SIZE : Z) (cells : list (list Z)) (nodes : list pt) (labels npart0 epart : list Z) (B : flow) : Prop := {
  sr_mesh : valid_mesh 2 cells nodes labels;
  sr_plane : planar nodes;
  sr_stars : star_connected 2 cells;
  sr_spanned : spanned 2 cells nodes;
  sr_split : valid_split 2 SIZE cells nodes npart0 epart;
  sr_u : flow_bc (fl_ubc B) (fl_uvs B);
  sr_v : flow_bc (fl_vbc B) (fl_vvs B);
  sr_room : (forall l, ~ In (l, BNonslip) (fl_ubc B) /\ ~ In (l, BNonslip) (fl_vbc B)) \/ room cells epart SIZE }.
(** the script: hu and hv replaced by variables with these conditions, or those of the constructor kept *)
Definition without_conditions : flow := {| fl_ubc := free; fl_uvs := []; fl_vbc := free; fl_vvs := [] |}.
Definition started_with (B : flow) (f : option ((list (loc * bctype) * list (loc * bcval)) * (list (loc * bctype) * list (loc * bcval)))) : Prop :=
  f = Some ((fl_ubc B, fl_uvs B), (fl_vbc B, fl_vvs B)) \/ f = None /\ B = without_conditions.
Definition coefficients (co : swcoef) : friction_etc := {| fe_Dx := co_Dx co; fe_Dy := co_Dy co; fe_Mann := co_Mann co; fe_fc := co_fc co |}.
(** the terms the program needs are switched on *)
Definition complete_terms (co : swcoef) : Prop := forall t, In t ["convective"; "dissipation"; "source"; "coriolis"]%string -> In t (co_terms co).
(** the cell arrays of the five variables on all the ranks hold the state W *)
Definition held (SIZE : Z) (st : setting) (W : Z -> q5) (s : sw_held) : Prop :=
  holding SIZE st (fun c => q_h (W c)) (sh_h s) /\ holding SIZE st (fun c => q_hu (W c)) (sh_hu s) /\ holding SIZE st (fun c => q_hv (W c)) (sh_hv s) /\
  holding SIZE st (fun c => q_hc (W c)) (sh_hc s) /\ holding SIZE st (fun c => q_Z (W c)) (sh_Z s).
(** the node arrays of h hold the interpolation of the depth *)
Definition depth_at_nodes (cells : list (list Z)) (nodes : list pt) (labels : list Z) (SIZE : Z) (st : setting) (W : Z -> q5) (s : sw_held) : Prop :=
  exists N, node_field SIZE st N (sh_h s) /\ forall c g, iscell cells c -> In g (cell cells c) -> nodal_value 2 cells nodes labels free [] (fun c => q_h (W c)) g (N g).
(** the amount of a conserved quantity in the mesh *)
Definition amount (cells : list (list Z)) (nodes : list pt) (k : q5 -> R) (W : Z -> q5) : R := rsum (map (fun c => measure_of cells nodes c * k (W c))%R (range (zlen cells))).
(** all sides are walls *)
Definition all_walls (B : flow) : Prop := forall l t, In (l, t) (fl_ubc B) \/ In (l, t) (fl_vbc B) -> t = BNonslip.
(** a lake with surface H0 *)
Definition lake (cells : list (list Z)) (H0 : R) (W : Z -> q5) : Prop := forall c, iscell cells c -> (0 < q_h (W c))%R /\ q_hu (W c) = 0%R /\ q_hv (W c) = 0%R /\ (q_h (W c) + q_Z (W c))%R = H0.
