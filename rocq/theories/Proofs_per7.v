(** * Proofs_per7: the transport program on a periodic mesh (one rank). *)
From Coq Require Import Reals Lra Permutation Sorted.
From Verif Require Import Py PyLemmas Model_part Spec_part Model_label Proofs_label Model_conn Spec_conn Proofs_conn1 Proofs_conn2 Model_geom Spec_geom Proofs_geom1 Proofs_geom2 Proofs_geom3
  Model_periodic Spec_periodic Model_interp Spec_interp Properties_interp Model_fvm Spec_fvm Proofs_fvm1 Proofs_fvm2 Model_bc Spec_bc Proofs_bc Proofs_bc2 Model_domain Spec_domain Proofs_domain1 Proofs_domain4 Model_parallel Spec_parallel Proofs_parallel1
  Properties_parallel Properties_fvm Model_comm Model_run Spec_run Proofs_run1 Proofs_run2 Proofs_run3 Proofs_run4 Proofs_run5 Proofs_run7.
From Verif Require Import Spec_per Proofs_per2 Proofs_per3 Proofs_per5 Proofs_per4 Proofs_per6.
Open Scope Z_scope.

Section Run.
Context (f32 : R -> R) (dim : Z) (cells : list (list Z)) (nodes : list pt) (labels npart0 epart : list Z) (D D1 : domain).
Hypothesis PM : periodic_mesh dim cells nodes labels f32.
Hypothesis VS : valid_split dim 1 cells nodes npart0 epart.
Hypothesis TW : twins f32 dim cells nodes labels D D1.
Hypothesis PA : part_of dim cells nodes (ones nodes) epart 0 D1.
Hypothesis CS : consistent dim D1.
Hypothesis FD : wf_facedata dim (dom_face D).
Context (bc : list (loc * bctype)) (vs : list (loc * bcval)) (U : pt) (cfl : R) (tc : list (list Z)).
Hypothesis BV : per_bc_valid dim cells labels bc vs.
Hypothesis HCFL : (0 < cfl)%R.
Notation st := {| se_domains := [D]; se_comms := []; se_tc := tc |}.
Notation BO := (bcdom_ok f32 dim cells nodes labels npart0 epart D D1 PM VS TW PA CS).
Notation SO := (settings_per f32 dim cells nodes labels npart0 epart D D1 PM VS TW PA bc vs BV).
Notation LC := (proj1 (proj2 (len_cells f32 dim cells nodes labels npart0 epart D D1 VS TW PA))).

Definition holds (X : Z -> R) (w : list R) : Prop := zlen w = zlen cells /\ forall c, iscell cells c -> nthZ 0%R w c = X c.
Definition state_ok (X : Z -> R) (hs : list held_by) : Prop := exists s w, hs = [s] /\ holds X w /\ vinv (dom_bc D) bc vs w (hb_ne s) /\ vel_ok D (hb_vel s).
Lemma start_per X w0 : holds X w0 -> exists hs, start bc vs 1 st [w0] = Ok hs /\ state_ok X hs.
Proof.
  intros HW. unfold start. change (range 1) with [0]. cbn [mapM]. change (get (se_domains st) 0) with (@Ok domain D). cbn [bind]. change (get [w0] 0) with (@Ok (list R) w0). cbn [bind].
  destruct (new_ok (dom_bc D) bc vs BO SO) as (v & Ev & VI). rewrite Ev. cbn [bind]. destruct (write_cell_ok (dom_bc D) bc vs BO SO _ v w0 VI) as (v' & Ev' & VI'); [cbn [dom_bc bd_nbcells]; rewrite LC; apply HW|].
  rewrite Ev'. cbn [bind]. cbv zeta. eexists. split; [reflexivity|]. eexists _, w0. split; [reflexivity|]. split; [exact HW|]. cbn [hb_ne hb_vel]. split; [exact VI'|]. unfold vel_ok. cbn [fst snd]. rewrite !zlen_zeros_like by apply zlen_nonneg. auto.
Qed.
Lemma update_per X w v : holds X w -> vinv (dom_bc D) bc vs w v -> exists v' g1, update_values 1 st [v] = Ok [v'] /\ vinv (dom_bc D) bc vs w v' /\ zlen (va_heap v') = 9 /\ zlen (nthZ [] (va_heap v') 2) = 0 /\ ghosts_updated (dom_bc D) bc vs w g1 (nthZ [] (va_heap v') 3).
Proof.
  intros (LW & HW) VI. unfold update_values. cbn [mapM]. rewrite (vinv_cell _ _ _ _ _ VI). cbn [bind]. unfold exchange. cbn [Z.eqb Pos.eqb mapM]. destruct (vs_alone _ _ _ _ _ _ VS eq_refl) as (NC & _). rewrite (get_nthZ 0%R w 0) by lia. cbn [bind].
  change (range 1) with [0]. cbn [mapM]. change (get (se_domains st) 0) with (@Ok domain D). cbn [bind]. change (get [v] 0) with (@Ok variable v). cbn [bind]. change (get [[]] 0) with (@Ok (list R) []). cbn [bind].
  destruct (tw_halos _ _ _ _ _ _ _ TW) as (EH & _). destruct (write_halo_ok (dom_bc D) bc vs BO w v [] VI) as (v1 & E1 & VI1 & H1); [cbn [dom_bc bd_nbhalos]; rewrite EH; reflexivity|]. rewrite E1. cbn [bind].
  destruct (Proofs_run2.update_ok (dom_bc D) bc vs BO SO _ v1 VI1) as (v2 & E2 & VI2 & H2 & G2 & N2). rewrite E2. cbn [bind]. exists v2, (nthZ [] (va_heap v1) 3). split; [reflexivity|]. split; [exact VI2|]. split; [exact N2|]. rewrite H2, H1. split; [reflexivity | exact G2].
Qed.
Lemma turn_per X hs : state_ok X hs -> exists dt hs', turn_of_loop U cfl 1 st hs = Ok (dt, hs') /\ (0 < dt)%R /\ largest_step cells nodes U cfl dt /\ state_ok (per_step dim cells nodes labels bc vs U dt X) hs'.
Proof.
  intros (s & w & -> & HW & VI & VO). unfold turn_of_loop. change (range 1) with [0]. cbn [mapM map]. change (get (se_domains st) 0) with (@Ok domain D). cbn [bind]. change (get [s] 0) with (@Ok held_by s). cbn [bind].
  destruct (velocity_per f32 dim cells nodes labels epart D D1 PM TW PA CS U _ VO) as (u & EU & VU & CU). rewrite EU. cbn [bind].
  destruct (update_per X w (hb_ne s) HW VI) as (v & g1 & EV & VI' & H9 & LH & GU). rewrite EV. cbn [bind]. change (get [u] 0) with (@Ok (list R * list R * list R) u). cbn [bind]. rewrite CU.
  destruct (timestep_per f32 dim cells nodes labels npart0 epart D D1 PM VS TW PA CS U cfl HCFL) as (dt & ET & PD & LS). rewrite ET. cbn [bind allreduce_min fold_left]. change (get [v] 0) with (@Ok variable v). cbn [bind].
  destruct HW as (LW & HW). destruct (advance_per f32 dim cells nodes labels npart0 epart D D1 PM VS TW PA CS FD bc vs BV U dt X w v VI' LW HW LH H9 (proj1 GU)) as (v' & w' & EA & VI2 & LW' & HW').
  { exact (ghost_per f32 dim cells nodes labels npart0 epart D D1 PM VS TW PA CS FD bc vs BV w g1 _ X HW GU). }
  rewrite EA. cbn [bind]. eexists dt, _. split; [reflexivity|]. split; [exact PD|]. split; [exact LS|]. eexists _, w'. split; [reflexivity|]. split; [split; assumption|]. cbn [hb_ne hb_vel]. split; assumption.
Qed.
Lemma loop_per dt tfinal X : largest_step cells nodes U cfl dt -> forall n k hs fuel, state_ok (per_run dim cells nodes labels k bc vs U dt X) hs -> (n <= fuel)%nat ->
  (tfinal <= INR (k + n) * dt)%R -> (forall m, (m < k + n)%nat -> (INR m * dt < tfinal)%R) ->
  exists hs', loop fuel U cfl 1 st tfinal (INR k * dt)%R hs = Ok (Some (INR (k + n) * dt, hs')%R) /\ state_ok (per_run dim cells nodes labels (k + n) bc vs U dt X) hs'.
Proof.
  intros HD. induction n as [|n IH]; intros k hs fuel HS Hf T1 T2.
  - rewrite Nat.add_0_r in *. exists hs. split; [|exact HS]. destruct fuel; cbn [loop]; destruct (Rlt_dec (INR k * dt) tfinal); [exfalso; lra | reflexivity | exfalso; lra | reflexivity].
  - destruct fuel as [|fuel]; [lia|]. cbn [loop]. destruct (Rlt_dec (INR k * dt) tfinal) as [_|X0]; [|exfalso; apply X0, T2; lia]. destruct (turn_per _ _ HS) as (dt' & hs' & E & _ & LS & HS'). rewrite E. cbn [bind fst snd].
    rewrite (largest_unique _ _ _ _ _ _ LS HD) in *. replace (INR k * dt + dt)%R with (INR (Datatypes.S k) * dt)%R by (rewrite S_INR; ring). replace (k + Datatypes.S n)%nat with (Datatypes.S k + n)%nat in * by lia.
    apply IH; [exact HS' | lia | exact T1 | exact T2].
Qed.
Lemma transport_per X w0 tfinal : holds X w0 -> exists dt n, (0 < dt)%R /\ largest_step cells nodes U cfl dt /\ (tfinal <= INR n * dt)%R /\ (forall m, (m < n)%nat -> (INR m * dt < tfinal)%R) /\
  forall fuel, (n <= fuel)%nat -> exists s w, transport fuel bc vs U cfl tfinal 1 st [w0] = Ok (Some (INR n * dt, [s])%R) /\ cell_of (hb_ne s) = Ok w /\ holds (per_run dim cells nodes labels n bc vs U dt X) w.
Proof.
  intros HV. destruct (start_per X w0 HV) as (hs & E & HS). destruct (turn_per X hs HS) as (dt & _ & _ & PD & LS & _). destruct (steps dt tfinal PD) as (n & T1 & T2). exists dt, n. split; [exact PD|]. split; [exact LS|]. split; [exact T1|]. split; [exact T2|].
  intros fuel Hf. destruct (loop_per dt tfinal X LS n 0%nat hs fuel HS Hf T1 T2) as (hs' & EL & (s & w & -> & HW & VI & _)). exists s, w. split; [|split; [exact (vinv_cell _ _ _ _ _ VI) | exact HW]].
  unfold transport. rewrite E. cbn [bind]. cbn [INR] in EL. rewrite Rmult_0_l in EL. exact EL.
Qed.
End Run.
