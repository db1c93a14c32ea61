(** * Proofs_run28: the program on a lake at rest runs to the end. *)
From Coq Require Import String Reals Lra Psatz Permutation Sorted.
From Verif Require Import Py PyLemmas Model_part Spec_part Model_label Model_conn Spec_conn Proofs_conn1 Proofs_conn2 Model_geom Spec_geom Proofs_geom1 Proofs_geom2 Proofs_geom3
  Model_halo Spec_halo Model_interp Spec_interp Spec_lsq Proofs_lsq Model_fvm Spec_fvm Proofs_fvm1 Proofs_fvm2 Model_bc Spec_bc Spec_bc3 Proofs_label Proofs_bc Proofs_bc2 Proofs_bc3 Model_domain Spec_domain
  Model_comm Model_parallel Spec_parallel Proofs_parallel1 Model_run Spec_run Proofs_run1 Proofs_run2 Proofs_run3 Proofs_run4 Proofs_run5 Proofs_run6 Spec_run2 Model_run2 Proofs_run7 Proofs_run8 Proofs_run9 Proofs_run10 Proofs_run11 Proofs_run12 Proofs_run13 Proofs_run14 Proofs_run15.
From Verif Require Import Model_sw Proofs_sw5 Proofs_sw6 Proofs_sw7 Model_run3 Spec_run4 Proofs_run17 Proofs_run18 Proofs_run19 Proofs_run20 Proofs_run21 Proofs_run22 Proofs_run23 Proofs_run24 Proofs_run26 Proofs_run27.
From Verif Require Spec_sw Properties_sw Proofs_sw8 Properties_parallel.
Open Scope Z_scope.
Section Ranks28.
Context (SIZE : Z) (cells : list (list Z)) (nodes : list pt) (labels npart0 epart : list Z) (st : setting).
Hypothesis VM : valid_mesh 2 cells nodes labels.
Hypothesis PL : planar nodes.
Hypothesis VS : valid_split 2 SIZE cells nodes npart0 epart.
Notation Ds := (se_domains st).
Notation Dr := (domain_of (se_domains st)).
Hypothesis RP : represents 2 SIZE cells nodes labels epart Ds.
Hypothesis SC : star_connected 2 cells.
Hypothesis CS : forall r, 0 <= r < SIZE -> consistent 2 (Dr r).
Hypothesis HX : 1 < SIZE -> forall (V : Type) (d : V) (X : Z -> V) (w : list (list V)), values_of d SIZE Ds X w -> exists halo, update_halo_value SIZE (se_comms st) w = Ok halo /\ halo_values_of d SIZE Ds X halo.
Hypothesis SP : spanned 2 cells nodes.
Notation PAr := (rp_part _ _ _ _ _ _ _ RP).
Notation size1 := (size11 2 SIZE cells nodes npart0 epart VS).
Notation dom r Hr := (dom11 2 SIZE cells nodes labels epart st RP r Hr).
Notation sizes := (Proofs_run5.sizes 2 SIZE cells nodes labels epart st RP).
Context (B : flow).
Hypothesis FU : flow_bc (fl_ubc B) (fl_uvs B).
Hypothesis FV : flow_bc (fl_vbc B) (fl_vvs B).
Hypothesis RU : readable SIZE st (fl_ubc B).
Hypothesis RV : readable SIZE st (fl_vbc B).
Context (order : Z) (co : swcoef) (cfl : R).
Hypothesis HCFL : (0 < cfl)%R.
Hypothesis HD : (0 <= co_Dx co + co_Dy co)%R.
Notation E := {| fe_Dx := co_Dx co; fe_Dy := co_Dy co; fe_Mann := co_Mann co; fe_fc := co_fc co |}.
Notation five := (five SIZE st B).
Notation state := (state SIZE st B order).
Notation gcell_cell := (gcell_cell SIZE cells nodes labels epart st RP).
Notation facets_of c := (facets (cell cells c)).
Notation PL2 := (fun _ : 2 = 2 => PL).
Notation W1 dt W := (fun c : Z => slowed E dt (W c)).
Notation all_terms := (forallb (fun t => has_term t (co_terms co)) ["convective"; "dissipation"; "source"; "coriolis"]%string = true).
Hypothesis QU : forall l t, In (l, t) (fl_ubc B) -> t <> BDirichlet.
Hypothesis QV : forall l t, In (l, t) (fl_vbc B) -> t <> BDirichlet.
Hypothesis FIRST : order <> 2.
Context (H0 : R).
Notation lake W := (forall c, iscell cells c -> Spec_sw.at_rest H0 (W c)).
Notation same_lake := (same_lake cells E).
Lemma lake_step_exists dt W s : all_terms -> lake W -> state W s -> exists V, sw_step cells nodes labels B order E dt W V.
Proof.
  intros AT L ST. destruct (update_ranks SIZE cells nodes labels npart0 epart st VS RP CS HX B FU FV RU RV order true W s ST) as (s1 & _ & S1 & F1).
  assert (OK : forall c, iscell cells c -> (0 < q_h (W c))%R /\ friction_factor E dt (W c) <> 0%R).
  { intros c Hc. split; [exact (proj1 (L c Hc))|]. rewrite (proj2 (rest_slowed E H0 dt (W c) (L c Hc))). lra. }
  destruct (update_core SIZE cells nodes labels npart0 epart st VM PL VS RP SC CS HX SP B FU FV RU RV order co dt W s1 AT S1 F1 OK) as (Sl & Tl & Ps & N & G & SL & TR & _).
  pose proof (lake_slowed cells E H0 dt W L) as L1.
  set (Phi := fun (c : Z) (F : list Z) => {| q_h := 0; q_hu := g981 * hp cells nodes labels B (W1 dt W) c F / 2 * px (outward cells nodes c F); q_hv := g981 * hp cells nodes labels B (W1 dt W) c F / 2 * py (outward cells nodes c F); q_hc := 0; q_Z := 0 |}%R).
  destruct (finite_choice (fun _ : list Z => 0%R) (zlen cells) (fun c H => part_depths cells nodes labels B (W1 dt W) c H) (zlen_nonneg _)) as (H & HH).
  { intros c Hc. exact (depths_exist_mesh cells nodes labels VM B (W1 dt W) (fun c Hc => proj1 (L1 c Hc)) c Hc). }
  exists (stepped cells nodes labels B E dt (W1 dt W) Phi G H). split; [exact OK|]. exists Sl, Tl, Ps, N, G, Phi, H. split; [exact SL|]. split; [exact TR|]. split; [|split; [exact HH | reflexivity]].
  intros c F Hc HF. exact (lake_flux cells nodes labels B order VM FU FV QU QV FIRST H0 (W1 dt W) Sl Tl Ps c F L1 (has cells nodes labels VM c F Hc HF)).
Qed.
Lemma lake_runs tfinal : all_terms -> forall n time dt W s, lake W -> state W s -> longest cells nodes E cfl W dt -> (0 < dt)%R -> (tfinal <= time + INR n * dt)%R ->
  exists m t V, (m <= n)%nat /\ evolution cells nodes labels B order E cfl tfinal m time dt W t V.
Proof.
  intros AT n. induction n as [|n IH]; intros time dt W s L ST LG DP TF.
  - exists O, time, W. split; [lia|]. apply ev_done; [cbn [INR] in TF; lra | reflexivity].
  - destruct (Rlt_dec time tfinal) as [LT|GE].
    + destruct (lake_step_exists dt W s AT L ST) as (V & SV). pose proof (lake_kept cells nodes labels B order E VM FU FV QU QV FIRST H0 dt W V L SV) as LV.
      assert (SL : same_lake V W) by exact (lake_step cells nodes labels B order E VM FU FV QU QV FIRST H0 dt W V L SV).
      pose proof (Proofs_run27.longest_same cells nodes E H0 cfl dt V W SL L LG) as LG'.
      destruct (turn_complete SIZE cells nodes labels npart0 epart st VM PL VS RP SC CS HX SP B FU FV RU RV order co cfl HCFL HD true dt W V dt s AT ST SV LG') as (s' & _ & ST' & _).
      destruct (IH (time + dt)%R dt V s' LV ST' LG' DP) as (m & t & V' & Hm & EV); [rewrite S_INR in TF; lra|].
      exists (Datatypes.S m), t, V'. split; [lia|]. exact (ev_step _ _ _ _ _ _ _ _ _ _ _ _ _ _ _ _ LT SV LG' EV).
    + exists O, time, W. split; [lia|]. apply ev_done; [lra | reflexivity].
Qed.
Notation flow_is f := (f = Some ((fl_ubc B, fl_uvs B), (fl_vbc B, fl_vvs B)) \/ f = None /\ B = {| fl_ubc := free; fl_uvs := []; fl_vbc := free; fl_vvs := [] |}).
Lemma lake_program f tfinal W0 w0 : flow_is f -> all_terms -> values_of q5_zero SIZE Ds W0 w0 -> lake W0 ->
  exists n t V, same_lake V W0 /\ (tfinal <= t)%R /\ forall fuel, (n <= fuel)%nat -> exists s, sw_program fuel f order co cfl tfinal SIZE st w0 = Ok (Some (t, s)) /\ state V s.
Proof.
  intros FI AT HV L. destruct (start_ok SIZE cells nodes labels npart0 epart st VS RP CS B FU FV RU RV order f W0 w0 FI HV) as (s & ES & ST).
  destruct (time_ok SIZE cells nodes labels npart0 epart st VM VS RP CS B co cfl HCFL HD W0 s (proj1 ST) (fun c Hc => proj1 (L c Hc))) as (dt & ET & DP & LG).
  assert (exists n, (tfinal <= 0 + INR n * dt)%R) as (n & Hn).
  { exists (Z.to_nat (Z.abs (Reals.Rdefinitions.up (tfinal / dt)))). destruct (archimed (tfinal / dt)) as (A & _). rewrite INR_IZR_INZ, Z2Nat.id by lia.
    assert (tfinal / dt <= IZR (Z.abs (Reals.Rdefinitions.up (tfinal / dt))))%R by (apply Rle_trans with (IZR (Reals.Rdefinitions.up (tfinal / dt))); [lra | apply IZR_le; lia]).
    apply (Rmult_le_compat_r dt) in H; [|lra]. unfold Rdiv in H. rewrite Rmult_assoc, Rinv_l in H by lra. lra. }
  destruct (lake_runs tfinal AT n 0%R dt W0 s L ST LG DP Hn) as (m & t & V & _ & EV). exists m, t, V. split; [exact (lake_evolution cells nodes labels B order E VM FU FV QU QV FIRST H0 cfl tfinal m _ _ _ _ _ L EV)|].
  split; [clear - EV; induction EV; assumption|]. intros fuel Hf.
  destruct (program_complete SIZE cells nodes labels npart0 epart st VM PL VS RP SC CS HX SP B FU FV RU RV order co cfl HCFL HD f fuel tfinal W0 w0 dt m t V FI AT HV LG EV Hf) as (s' & EP & SV & _). exists s'. split; assumption.
Qed.
End Ranks28.
