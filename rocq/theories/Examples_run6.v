(** * Examples_run6: the saves of a lake at rest (C93). *)
From Coq Require Import String Reals Lra Psatz Permutation Sorted.
From Verif Require Import Py PyLemmas Model_part Spec_part Model_label Model_conn Spec_conn Proofs_conn1 Proofs_conn2 Model_geom Spec_geom Proofs_geom1 Proofs_geom2 Proofs_geom3
  Model_halo Spec_halo Model_interp Spec_interp Spec_lsq Proofs_lsq Model_fvm Spec_fvm Proofs_fvm1 Proofs_fvm2 Model_bc Spec_bc Spec_bc3 Proofs_label Proofs_bc Proofs_bc2 Proofs_bc3 Model_domain Spec_domain
  Model_comm Model_parallel Spec_parallel Proofs_parallel1 Model_run Spec_run Proofs_run1 Proofs_run2 Proofs_run3 Proofs_run4 Proofs_run5 Proofs_run6 Spec_run2 Model_run2 Proofs_run7 Proofs_run8 Proofs_run9 Proofs_run10 Proofs_run11 Proofs_run12 Proofs_run13 Proofs_run14 Proofs_run15 Spec_run3 Proofs_run16 Properties_parallel Properties_run Properties_run2.
From Verif Require Import Model_sw Proofs_sw5 Proofs_sw6 Proofs_sw7 Model_run3 Spec_run4 Proofs_run17 Proofs_run18 Proofs_run19 Proofs_run20 Proofs_run21 Proofs_run22 Proofs_run23 Proofs_run24 Proofs_run26 Proofs_run27 Proofs_run25 Proofs_run28 Proofs_run29 Spec_run5 Properties_run3 Examples_run3.
From Verif Require Import Model_save Spec_save Model_run6 Spec_run8 Proofs_run38 Properties_run6.
Open Scope Z_scope.

Lemma saved_ext dim SIZE cells nodes X Y m F : (forall c, iscell cells c -> X c = Y c) -> saved dim SIZE cells nodes (OnCells X) m F -> saved dim SIZE cells nodes (OnCells Y) m F.
Proof.
  intros EX (parts & P1 & P2 & P3). exists parts. split; [exact P1|]. split; [exact P2|]. intros r Hr. destruct (P3 r Hr) as (g & G1 & G2 & G3 & G4 & w & W1 & W2 & W3). exists g. split; [exact G1|]. split; [exact G2|]. split; [exact G3|]. split; [exact G4|].
  exists w. split; [exact W1|]. split; [exact W2|]. intros j Hj. destruct (W3 j Hj) as (Q1 & Q2). split; [exact Q1|]. rewrite Q2. apply EX.
  assert (HI : In (nthZ 0 (nthZ [] parts r) j) (concat parts)). { apply in_concat. exists (nthZ [] parts r). split; [apply nthZ_In; lia | apply nthZ_In; exact Hj]. }
  apply (Permutation_in _ P2) in HI. apply in_range in HI. exact HI.
Qed.
(** A lake at rest, first order, saved on the cells: with first time step dt, when tfinal >= 50 dt, the program ends, with at least two saves, and all of them show the lake as it was at the start;
    when dt < tfinal < 50 dt, it fails. *)
Theorem C93_lake : forall f32 SIZE cells nodes labels npart0 epart B order co cfl ord H0,
  sw_regular SIZE cells nodes labels npart0 epart B -> (0 < cfl)%R -> (0 <= co_Dx co + co_Dy co)%R -> complete_terms co -> order <> 2 -> (forall l t, In (l, t) (fl_ubc B) \/ In (l, t) (fl_vbc B) -> t <> BDirichlet) ->
  (forall m, Permutation (ord m) (range SIZE)) ->
  exists st, setup f32 2 SIZE cells nodes labels npart0 epart = Ok st /\
    forall f W0 w0 F0, started_with B f -> values_of q5_zero SIZE (se_domains st) W0 w0 -> lake cells H0 W0 ->
    exists dt, (0 < dt)%R /\ longest cells nodes (coefficients co) cfl W0 dt /\
      (forall tfinal, (50 * dt <= tfinal)%R -> exists n t s F k, sw_saving_program n f order co cfl tfinal false ord SIZE st w0 F0 = Ok (Some (t, s, F)) /\ (tfinal <= t)%R /\ 2 <= k /\
         (forall m, 0 <= m < k -> saved 2 SIZE cells nodes (OnCells (fun c => q_h (W0 c))) m F /\ (1 < SIZE -> indexed SIZE (OnCells (fun c => q_h (W0 c))) m F)) /\
         forall m, ~ 0 <= m < k -> fs_pvtu F m = None /\ forall r, fs_vtu F r m = None) /\
      forall tfinal fuel at_node, (dt < tfinal < 50 * dt)%R -> (2 <= fuel)%nat -> sw_saving_program fuel f order co cfl tfinal at_node ord SIZE st w0 F0 = Err ZeroDivision.
Proof.
  intros f32 SIZE cells nodes labels npart0 epart B order co cfl ord H0 RG HC HD TE FO ND PO.
  destruct (C93_saves f32 SIZE cells nodes labels npart0 epart B order co cfl false ord RG HC HD TE PO) as (st0 & E0 & SA).
  pose proof (fun at_node => C93_few_turns_refuted f32 SIZE cells nodes labels npart0 epart B order co cfl at_node ord RG HC HD TE PO) as FT.
  sw_setup f32 RG st E RP CS HX RU RV. rewrite E in E0. injection E0 as <-. exists st. split; [exact E|]. intros f W0 w0 F0 HS HV LK.
  destruct (start_ok SIZE cells nodes labels npart0 epart st VS RP CS B FU FV RU RV order f W0 w0 HS HV) as (s0 & ES & ST0).
  destruct (time_ok SIZE cells nodes labels npart0 epart st VM VS RP CS B co cfl HC HD W0 s0 (proj1 ST0) (fun c Hc => proj1 (LK c Hc))) as (dt & _ & DP & LO). exists dt. split; [exact DP|]. split; [exact LO|].
  assert (RUNS : forall tfinal, exists l t, course cells nodes labels B order (coefficients co) cfl tfinal 0 dt W0 l t /\ (tfinal <= t)%R /\ forall V, In V l -> forall c, iscell cells c -> q_h (V c) = q_h (W0 c)).
  { intros tfinal. destruct (steps dt tfinal DP) as (n & T1 & _). assert (HT : (tfinal <= 0 + INR n * dt)%R) by lra.
    destruct (lake_runs SIZE cells nodes labels npart0 epart st VM PL VS RP SC CS HX SP B FU FV RU RV order co cfl HC HD (fun l t H => ND l t (or_introl H)) (fun l t H => ND l t (or_intror H)) FO H0 tfinal (terms_on co TE) n 0%R dt W0 s0 LK ST0 LO DP HT) as (m & t & V & _ & EV).
    apply C93_course in EV as (l & _ & CO & _). exists l, t. split; [exact CO|]. clear -CO LK VM FU FV FO ND. revert LK. assert (KEEP : lake cells H0 W0 -> (forall c, iscell cells c -> q_h (W0 c) = q_h (W0 c)) -> (tfinal <= t)%R /\ forall V, In V l -> forall c, iscell cells c -> q_h (V c) = q_h (W0 c)); [|auto].
    generalize W0 at 3 4. intros Wi. revert CO. generalize 0%R. intros time CO. induction CO as [time dt W HT | time dt W W1 dt1 l t HT STEP LO CO IH]; intros LK EQ; [split; [exact HT | intros V []]|].
    pose proof (Proofs_run27.lake_step cells nodes labels B order (coefficients co) VM FU FV (fun l t H => ND l t (or_introl H)) (fun l t H => ND l t (or_intror H)) FO H0 dt W W1 LK STEP) as SL.
    assert (L1 : lake cells H0 W1). { intros c Hc. destruct (SL c Hc) as (A & B1 & C & D & _). destruct (LK c Hc) as (P1 & _ & _ & P4). rewrite A, D. auto. }
    assert (E1 : forall c, iscell cells c -> q_h (W1 c) = q_h (Wi c)) by (intros c Hc; rewrite (proj1 (SL c Hc)); exact (EQ c Hc)).
    destruct (IH L1 E1) as (TT & KK). split; [exact TT|]. intros V [<-|HV] c Hc; [exact (E1 c Hc) | exact (KK V HV c Hc)]. }
  split.
  - intros tfinal TF. destruct (RUNS tfinal) as (l & t & CO & TT & KK).
    set (tot := Int_part (tfinal / (50 * dt))). destruct (base_Int_part (tfinal / (50 * dt))) as (I1 & I2). fold tot in I1, I2.
    assert (EQ : (tfinal / (50 * dt) * (50 * dt) = tfinal)%R) by (field; lra).
    assert (TOT : (IZR tot * (50 * dt) <= tfinal < (IZR tot + 1) * (50 * dt))%R). { rewrite <- EQ at 1 2. split; [apply Rmult_le_compat_r; lra | apply Rmult_lt_compat_r; lra]. }
    assert (T1 : 1 <= tot). { assert (0 < IZR tot)%R; [|apply lt_IZR in H; lia]. assert (1 <= tfinal / (50 * dt))%R by (apply Rmult_le_reg_r with (50 * dt)%R; lra). lra. }
    destruct (SA f W0 w0 (length l) tfinal dt l t tot F0 HS HV ltac:(lra) LO CO (le_n _) TOT (or_introl T1)) as (s & F & flds & EP & _ & FW & DI).
    assert (NE : l <> []) by (intros ->; inversion CO; subst; lra).
    assert (ALL : forall m, 0 <= m < zlen flds -> exists X, nthZ (OnCells (fun _ => 0%R)) flds m = OnCells X /\ forall c, iscell cells c -> X c = q_h (W0 c)).
    { assert (IN : forall V, In V (map (fun k => nthZ W0 l (k - 1)) (saving_turns tot (zlen l)) ++ [last l W0]) -> forall c, iscell cells c -> q_h (V c) = q_h (W0 c)).
      { intros V HV' c Hc. apply in_app_iff in HV' as [HV'|[<-|[]]].
        - apply in_map_iff in HV' as (k & <- & Hk). apply filter_In in Hk as (Hk & _). unfold range2 in Hk. apply in_map_iff in Hk as (i & <- & Hi). apply in_range in Hi. apply KK; [apply nthZ_In; lia | exact Hc].
        - apply KK; [|exact Hc]. rewrite (last_nth W0 l NE). apply nthZ_In. destruct l; [congruence|]. rewrite zlen_cons. pose proof (zlen_nonneg l). lia. }
      revert FW IN. generalize (map (fun k => nthZ W0 l (k - 1)) (saving_turns tot (zlen l)) ++ [last l W0]). intros vs FW IN m Hm.
      assert (NP : forall fl, In fl flds -> exists X, fl = OnCells X /\ forall c, iscell cells c -> X c = q_h (W0 c)).
      { clear -FW IN. induction FW as [|V fld vs flds HW FW IH]; intros fl Hfl; [destruct Hfl|]. destruct Hfl as [<-|Hfl]; [|exact (IH (fun V' H => IN V' (or_intror H)) fl Hfl)]. exists (fun c => q_h (V c)). split; [exact HW | exact (IN V (or_introl eq_refl))]. }
      apply NP. apply nthZ_In. exact Hm. }
    exists (length l), t, s, F, (zlen flds). split; [exact EP|]. split; [exact TT|]. split; [|split].
    + assert (LF : zlen flds = zlen (saving_turns tot (zlen l)) + 1). { unfold zlen at 1. rewrite <- (Forall2_length _ _ _ FW), app_length, map_length. unfold zlen. cbn [length]. lia. }
      assert (1 <= zlen (saving_turns tot (zlen l))); [|lia]. assert (HI : In 1 (saving_turns tot (zlen l))).
      { apply filter_In. split; [|reflexivity]. unfold range2. apply in_map_iff. exists 0. split; [lia|]. apply in_range. destruct l; [congruence|]. rewrite zlen_cons. pose proof (zlen_nonneg l). lia. }
      destruct (saving_turns tot (zlen l)); [destruct HI|]. rewrite zlen_cons. pose proof (zlen_nonneg l0). lia.
    + intros m Hm. destruct (ALL m Hm) as (X & EX & HX'). destruct (proj1 (DI m) Hm) as (D1 & D2). cbv zeta in D1, D2. rewrite EX in D1, D2. split; [exact (saved_ext 2 SIZE cells nodes X _ m F HX' D1)|]. exact D2.
    + intros m Hm. exact (proj2 (DI m) Hm).
  - intros tfinal fuel at_node HT HF. destruct (FT at_node) as (st' & E' & FT'). rewrite E in E'. injection E' as <-. destruct (RUNS tfinal) as (l & t & CO & _).
    apply (FT' f W0 w0 fuel tfinal dt l t F0 HS HV ltac:(lra) LO CO HF ltac:(lra)).
    inversion CO as [|? ? ? V1 ? l1 ? ? ? ? CO1]; subst; [lra|]. inversion CO1; subst; [lra|]. rewrite !zlen_cons. match goal with |- 2 <= zlen ?x + 1 + 1 => pose proof (zlen_nonneg x) end. lia.
Qed.
Print Assumptions C93_lake.
(** on the channel with two ranks, writing in the order 1, 0 *)
Theorem C93_channel_lake : forall f32 cfl F0, (0 < cfl)%R -> exists st w0 dt, setup f32 2 2 ch ch_v ch_labels [0; 0; 1; 0; 1; 1] [0; 0; 1; 1] = Ok st /\ (0 < dt)%R /\
  (exists n t s F, sw_saving_program n (Some ((walls, []), (walls, []))) 1 (all_on 1 1 (1/10) (1/1000)) cfl (120 * dt) false (fun _ => [1; 0]) 2 st w0 F0 = Ok (Some (t, s, F)) /\
     saved 2 2 ch ch_v (OnCells (fun c => q_h (stepped_lake c))) 1 F /\ indexed 2 (OnCells (fun c => q_h (stepped_lake c))) 1 F) /\
  forall fuel at_node, (2 <= fuel)%nat -> sw_saving_program fuel (Some ((walls, []), (walls, []))) 1 (all_on 1 1 (1/10) (1/1000)) cfl (40 * dt) at_node (fun _ => [1; 0]) 2 st w0 F0 = Err ZeroDivision.
Proof.
  intros f32 cfl F0 HC. destruct (C77_any_state f32 2 ch ch_v ch_labels _ _ basin stepped_lake (proj2 C77_channel)) as (st & w0 & E & HV).
  assert (ND : forall l t, In (l, t) (fl_ubc basin) \/ In (l, t) (fl_vbc basin) -> t = BNonslip) by (intros l t H; cbn in H; intuition congruence).
  assert (HD : (0 <= co_Dx (all_on 1 1 (1/10) (1/1000)) + co_Dy (all_on 1 1 (1/10) (1/1000)))%R) by (cbn; lra).
  destruct (C93_lake f32 2 ch ch_v ch_labels _ _ basin 1 (all_on 1 1 (1/10) (1/1000)) cfl (fun _ => [1; 0]) 2 (proj2 C77_channel) HC HD (all_on_complete _ _ _ _) ltac:(lia)) as (st1 & E1 & R1); [intros l t H; rewrite (ND l t H); discriminate | intros _; apply perm_swap|]. rewrite E in E1. injection E1 as <-.
  destruct (R1 (Some ((walls, []), (walls, []))) stepped_lake w0 F0 (or_introl eq_refl) HV) as (dt & DP & _ & A & B). { intros c Hc. unfold stepped_lake. destruct (c <=? 1); cbn; lra. }
  exists st, w0, dt. split; [exact E|]. split; [exact DP|]. split.
  - destruct (A (120 * dt)%R ltac:(lra)) as (n & t & s & F & k & EP & _ & K2 & SV & _). exists n, t, s, F. split; [exact EP|]. destruct (SV 1 ltac:(lia)) as (S1 & S2). split; [exact S1 | exact (S2 ltac:(lia))].
  - intros fuel at_node HF. apply B; [lra | exact HF].
Qed.
Print Assumptions C93_channel_lake.
