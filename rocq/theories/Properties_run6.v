(** * Properties_run6: what the shallow-water program leaves in the directory results (C93). *)
From Coq Require Import String Reals Lra Psatz Permutation Sorted.
From Verif Require Import Py PyLemmas Model_part Spec_part Model_label Model_conn Spec_conn Proofs_conn1 Proofs_conn2 Model_geom Spec_geom Proofs_geom1 Proofs_geom2 Proofs_geom3
  Model_halo Spec_halo Model_interp Spec_interp Spec_lsq Proofs_lsq Model_fvm Spec_fvm Proofs_fvm1 Proofs_fvm2 Model_bc Spec_bc Spec_bc3 Proofs_label Proofs_bc Proofs_bc2 Proofs_bc3 Model_domain Spec_domain
  Model_comm Model_parallel Spec_parallel Proofs_parallel1 Model_run Spec_run Proofs_run1 Proofs_run2 Proofs_run3 Proofs_run4 Proofs_run5 Proofs_run6 Spec_run2 Model_run2 Proofs_run7 Proofs_run8 Proofs_run9 Proofs_run10 Proofs_run11 Proofs_run12 Proofs_run13 Proofs_run14 Proofs_run15 Spec_run3 Proofs_run16 Properties_parallel Properties_run Properties_run2.
From Verif Require Import Model_sw Proofs_sw5 Proofs_sw6 Proofs_sw7 Model_run3 Spec_run4 Proofs_run17 Proofs_run18 Proofs_run19 Proofs_run20 Proofs_run21 Proofs_run22 Proofs_run23 Proofs_run24 Proofs_run26 Proofs_run27 Proofs_run25 Proofs_run28 Proofs_run29 Spec_run5 Properties_run3.
From Verif Require Spec_sw Properties_sw Proofs_sw8 Properties_save.
From Verif Require Import Model_save Spec_save Model_run6 Spec_run8 Proofs_run38.
Open Scope Z_scope.

(** The courses are the evolutions, with the states in between. *)
Theorem C93_course : forall cells nodes labels B order E cfl tfinal n time dt W t V,
  evolution cells nodes labels B order E cfl tfinal n time dt W t V <->
  exists l, zlen l = Z.of_nat n /\ course cells nodes labels B order E cfl tfinal time dt W l t /\ forall c, iscell cells c -> V c = last l W c.
Proof.
  intros cells nodes labels B order E cfl tfinal n. induction n as [|n IH]; intros time dt W t V; split.
  - intros EV. inversion EV; subst. exists []. split; [reflexivity|]. split; [constructor; assumption | assumption].
  - intros (l & LL & CO & EV). destruct l; [|exfalso; rewrite zlen_cons in LL; pose proof (zlen_nonneg l); lia]. inversion CO; subst. constructor; assumption.
  - intros EV. inversion EV; subst. match goal with HE : evolution _ _ _ _ _ _ _ _ n _ _ ?V1 _ _ |- _ => apply IH in HE as (l & LL & CO & EL); exists (V1 :: l) end.
    split; [rewrite zlen_cons; lia|]. split; [econstructor; eassumption|]. intros c Hc. rewrite (EL c Hc). destruct l as [|x l]; [reflexivity|]. cbn [last]. clear. revert x. induction l as [|y l IH]; intros x; [reflexivity | exact (IH y)].
  - intros (l & LL & CO & EL). destruct l as [|V1 l]; [exfalso; change (zlen (@nil (Z -> q5))) with 0 in LL; lia|]. rewrite zlen_cons in LL. inversion CO; subst. econstructor; try eassumption. apply IH. exists l. split; [lia|]. split; [eassumption|].
    intros c Hc. rewrite (EL c Hc). destruct l as [|x l]; [reflexivity|]. cbn [last]. clear. revert x. induction l as [|y l IH]; intros x; [reflexivity | exact (IH y)].
Qed.
Print Assumptions C93_course.

Lemma py_int_is x m : (0 <= x)%R -> (IZR m <= x < IZR m + 1)%R -> py_int x = m.
Proof. intros H0 (H1 & H2). unfold py_int. destruct (Rle_dec 0 x); [|lra]. destruct (base_Int_part x) as (A & B). assert (IZR m < IZR (Int_part x + 1))%R by (rewrite plus_IZR; lra). assert (IZR (Int_part x) < IZR (m + 1))%R by (rewrite plus_IZR; lra). apply lt_IZR in H, H3. lia. Qed.
Lemma last_nth {A} (d : A) l : l <> [] -> last l d = nthZ d l (zlen l - 1).
Proof.
  intros NE. pose proof (app_removelast_last d NE) as AE. set (y := last l d) in *. rewrite AE. rewrite zlen_app. change (zlen [y]) with 1. pose proof (zlen_nonneg (removelast l)). rewrite nthZ_app_r by (change (zlen [y]) with 1; lia).
  replace (zlen (removelast l) + 1 - 1 - zlen (removelast l)) with 0 by lia. reflexivity.
Qed.

Section Course.
Context (SIZE : Z) (cells : list (list Z)) (nodes : list pt) (labels npart0 epart : list Z) (st : setting) (B : flow) (order : Z) (co : swcoef) (cfl : R).
Notation E := (coefficients co).
Notation state := (Proofs_run23.state SIZE st B order).
Notation shown_h := (Proofs_run24.shown_h SIZE cells nodes labels st).
Hypothesis TURN : forall own dt W V dt' s, state W s -> sw_step cells nodes labels B order E dt W V -> longest cells nodes E cfl V dt' ->
  exists s', sw_turn own order co cfl dt SIZE st s = Ok (dt', s') /\ state V s' /\ shown_h V s'.
Context (own : bool) (tfinal : R).
Definition turn_of (x : R * sw_held) : res (R * R * (R * sw_held)) := do q <- sw_turn own order co cfl (fst x) SIZE st (snd x); ret (fst x, fst q, q).
Definition reached (V : Z -> q5) (s : sw_held) : Prop := state V s /\ shown_h V s.
Lemma sw_goes time dt W l t : course cells nodes labels B order E cfl tfinal time dt W l t -> forall s, state W s ->
  exists ls s' dt', goes turn_of tfinal time (dt, s) ls t (dt', s') /\ Forall2 (fun x V => reached V (snd (snd x))) ls l /\ (l <> [] -> reached (last l W) s').
Proof.
  induction 1 as [time dt W HT | time dt W W1 dt1 l t HT STEP LO CO IH]; intros s ST.
  - exists [], s, dt. split; [constructor; exact HT|]. split; [constructor|]. congruence.
  - destruct (TURN own dt W W1 dt1 s ST STEP LO) as (s1 & E1 & ST1 & SH1). destruct (IH s1 ST1) as (ls & s' & dt' & G & FF & LA). exists ((dt, (dt1, s1)) :: ls), s', dt'. split; [|split].
    + apply (go_turn turn_of tfinal time (dt, s) dt dt1 (dt1, s1)); [exact HT | unfold turn_of; cbn [fst snd]; rewrite E1; reflexivity | exact G].
    + constructor; [split; assumption | exact FF].
    + intros _. destruct l as [|V l].
      * inversion FF; subst. inversion G; subst. split; assumption.
      * specialize (LA ltac:(discriminate)). assert (EL : forall (d d' V : Z -> q5) l, last (V :: l) d = last (V :: l) d') by (clear; intros d d' V l; revert V; induction l as [|y l IH]; intros V; [reflexivity | exact (IH y)]). change (last (W1 :: V :: l) W) with (last (V :: l) W). rewrite (EL W W1). exact LA.
Qed.
End Course.

Lemma Forall2_length {A B} (P : A -> B -> Prop) l m : Forall2 P l m -> length l = length m.
Proof. induction 1; cbn [length]; congruence. Qed.
Lemma c93_offers SIZE cells nodes labels npart0 epart st B order at_node V s : valid_mesh 2 cells nodes labels -> valid_split 2 SIZE cells nodes npart0 epart -> represents 2 SIZE cells nodes labels epart (se_domains st) ->
  reached SIZE cells nodes labels st B order V s -> exists fld, written_field 2 cells nodes labels free [] at_node (fun c => q_h (V c)) fld /\ offers SIZE st at_node (sh_h s) fld.
Proof.
  intros VM VS RP (ST & SH & NV). destruct at_node eqn:AN.
  - destruct (state_nodes _ _ _ _ _ _ _ _ _ _ _ VM VS RP ST NV) as (N & NF & NN). exists (OnNodes N). split; [exists N; split; [reflexivity | exact NN]|]. apply offers_nodes; [reflexivity | | exact NF].
    destruct ST as ([(ws & L & _) _ _ _ _] & _). exact L.
  - exists (OnCells (fun c => q_h (V c))). split; [reflexivity|]. apply offers_cells; [reflexivity|]. exact (proj1 (state_held _ _ _ _ _ _ _ _ _ _ VS ST)).
Qed.
Lemma c93_fields SIZE cells nodes labels npart0 epart st B order at_node : valid_mesh 2 cells nodes labels -> valid_split 2 SIZE cells nodes npart0 epart -> represents 2 SIZE cells nodes labels epart (se_domains st) ->
  forall (ls : list (R * (R * sw_held))) l, Forall2 (fun x V => reached SIZE cells nodes labels st B order V (snd (snd x))) ls l ->
  exists flds, Forall2 (fun V fld => written_field 2 cells nodes labels free [] at_node (fun c => q_h (V c)) fld) l flds /\ Forall2 (fun x fld => offers SIZE st at_node (sh_h (snd (snd x))) fld) ls flds.
Proof.
  intros VM VS RP. induction 1 as [|x V ls l RE FF (flds & F1 & F2)]; [exists []; split; constructor|].
  destruct (c93_offers SIZE cells nodes labels npart0 epart st B order at_node V _ VM VS RP RE) as (fld & W1 & O1). exists (fld :: flds). split; constructor; assumption.
Qed.
Lemma picked_written {A} (P : A -> field -> Prop) d T : forall l flds, Forall2 P l flds -> Forall2 P (map (fun k => nthZ d l (k - 1)) (saving_turns T (zlen l))) (picked T 1 flds).
Proof.
  intros l flds FF. rewrite (picked_filter (OnCells (fun _ => 0%R))). assert (LL : zlen flds = zlen l) by (unfold zlen; rewrite (Forall2_length _ _ _ FF); reflexivity). rewrite LL. unfold saving_turns. replace (1 + zlen l) with (zlen l + 1) by lia.
  assert (GEN : forall ks, (forall k, In k ks -> 1 <= k <= zlen l) -> Forall2 P (map (fun k => nthZ d l (k - 1)) ks) (map (fun k => nthZ (OnCells (fun _ => 0%R)) flds (k - 1)) ks)).
  { induction ks as [|k ks IH]; intros H; cbn [map]; constructor; [|apply IH; intros; apply H; right; assumption]. pose proof (H k (or_introl eq_refl)) as Hk. clear -FF Hk.
    assert (NP : forall l flds, Forall2 P l flds -> forall n : nat, (n < length l)%nat -> P (nth n l d) (nth n flds (OnCells (fun _ => 0%R)))).
    { clear. induction 1 as [|x y l m H FF IH]; intros n Hn; [cbn in Hn; lia|]. destruct n as [|n]; [exact H | exact (IH n ltac:(cbn in Hn; lia))]. }
    unfold nthZ. apply (NP l flds FF). unfold zlen in Hk. lia. }
  apply GEN. intros k Hk. apply filter_In in Hk as (Hk & _). unfold range2 in Hk. apply in_map_iff in Hk as (i & <- & Hi). apply in_range in Hi. lia.
Qed.

(** C93.  The program test_sw_2d with its saves, on any number of ranks which write their files in any order: at its end the directory holds, under the numbers 0, 1, 2, ..., the depth after the
    first turn and after every tot-th turn, and at last the depth at the end; on the cells, or interpolated to the nodes; and nothing else.  This needs tfinal >= 50 times the first time step. *)
Theorem C93_saves : forall f32 SIZE cells nodes labels npart0 epart B order co cfl at_node ord,
  sw_regular SIZE cells nodes labels npart0 epart B -> (0 < cfl)%R -> (0 <= co_Dx co + co_Dy co)%R -> complete_terms co -> (forall m, Permutation (ord m) (range SIZE)) ->
  exists st, setup f32 2 SIZE cells nodes labels npart0 epart = Ok st /\
    forall f W0 w0 fuel tfinal dt l t tot F0, started_with B f -> values_of q5_zero SIZE (se_domains st) W0 w0 -> (0 < tfinal)%R ->
    longest cells nodes (coefficients co) cfl W0 dt -> course cells nodes labels B order (coefficients co) cfl tfinal 0 dt W0 l t -> (length l <= fuel)%nat ->
    (IZR tot * (50 * dt) <= tfinal < (IZR tot + 1) * (50 * dt))%R -> 1 <= tot \/ zlen l = 1 ->
    exists s F flds, sw_saving_program fuel f order co cfl tfinal at_node ord SIZE st w0 F0 = Ok (Some (t, s, F)) /\ held SIZE st (last l W0) s /\
      Forall2 (fun W fld => written_field 2 cells nodes labels free [] at_node (fun c => q_h (W c)) fld) (map (fun k => nthZ W0 l (k - 1)) (saving_turns tot (zlen l)) ++ [last l W0]) flds /\
      directory 2 SIZE cells nodes flds F.
Proof.
  intros f32 SIZE cells nodes labels npart0 epart B order co cfl at_node ord RG HC HD TE PO. sw_setup f32 RG st E RP CS HX RU RV. exists st. split; [exact E|].
  intros f W0 w0 fuel tfinal dt l t tot F0 HS HV TP LO CO LE TOT T1.
  destruct (Properties_save.C91_save f32 2 SIZE cells nodes labels npart0 epart VM VS) as (st' & E' & SV). rewrite E in E'. injection E' as <-.
  destruct (start_ok SIZE cells nodes labels npart0 epart st VS RP CS B FU FV RU RV order f W0 w0 HS HV) as (s0 & E0 & ST0).
  destruct (time_ok SIZE cells nodes labels npart0 epart st VM VS RP CS B co cfl HC HD W0 s0 (proj1 ST0) (proj1 LO)) as (d & E1 & DP & LO').
  pose proof (longest_unique cells nodes (coefficients co) cfl W0 W0 dt d (fun _ _ => eq_refl) LO LO') as EQ. subst d.
  set (own := match f with None => true | Some _ => false end).
  pose proof (fun own dt W V dt' s => turn_complete SIZE cells nodes labels npart0 epart st VM PL VS RP SC CS HX SP B FU FV RU RV order co cfl HC HD own dt W V dt' s (terms_on co TE)) as TC.
  destruct (sw_goes SIZE cells nodes labels st B order co cfl TC own tfinal 0%R dt W0 l t CO s0 ST0) as (ls & s' & dt' & G & FF & LA).
  assert (NE : l <> []) by (intros ->; inversion CO; subst; lra). specialize (LA NE).
  destruct (c93_fields SIZE cells nodes labels npart0 epart st B order at_node VM VS RP ls l FF) as (flds & FW & FO).
  destruct (c93_offers SIZE cells nodes labels npart0 epart st B order at_node _ s' VM VS RP LA) as (lf & WL & OL).
  assert (ET : py_int ((tfinal - 0) / dt / 50)%R = tot).
  { apply py_int_is. - apply Rmult_le_pos; [apply Rmult_le_pos; [lra | left; apply Rinv_0_lt_compat; exact DP] | lra].
    - replace ((tfinal - 0) / dt / 50)%R with (tfinal / (50 * dt))%R by (field; lra). split; [apply Rmult_le_reg_r with (50 * dt)%R | apply Rmult_lt_reg_r with (50 * dt)%R]; try lra; unfold Rdiv; rewrite Rmult_assoc, Rinv_l by lra; lra. }
  assert (LEN : length ls = length l) by exact (Forall2_length _ _ _ FF).
  destruct (saving_runs 2 SIZE cells nodes st SV at_node ord PO (turn_of SIZE st order co cfl own) (fun x => sh_h (snd x)) (fun _ => tot) true tfinal tot 0%R (dt, s0) ls t (dt', s') G fuel dt 1 flds [] (emptied F0) lf) as (F & EL & DI).
  - lia.
  - reflexivity.
  - lia.
  - destruct T1 as [T1|T1]; [left; lia | right; right]. split; [reflexivity|]. unfold zlen in T1. lia.
  - exact FO.
  - intros _. exact OL.
  - apply empty_directory.
  - exists s', F, (picked tot 1 flds ++ [lf]). split; [|split; [exact (state_held _ _ _ _ _ _ _ _ _ _ VS (proj1 LA)) | split; [|exact DI]]].
    + unfold sw_saving_program. rewrite E0. cbn [bind]. rewrite E1. cbn [bind]. cbv zeta. rewrite ET. fold own. change (zlen []) with 0 in EL. unfold turn_of in EL. rewrite EL. reflexivity.
    + apply Forall2_app; [|constructor; [exact WL | constructor]]. apply (picked_written _ W0 tot l flds FW).
Qed.
Print Assumptions C93_saves.
(** A property one would expect is false: when tfinal is less than 50 first time steps and the loop makes more than one turn, tot is 0 and the program fails, with the error of Python's %. *)
Theorem C93_few_turns_refuted : forall f32 SIZE cells nodes labels npart0 epart B order co cfl at_node ord,
  sw_regular SIZE cells nodes labels npart0 epart B -> (0 < cfl)%R -> (0 <= co_Dx co + co_Dy co)%R -> complete_terms co -> (forall m, Permutation (ord m) (range SIZE)) ->
  exists st, setup f32 2 SIZE cells nodes labels npart0 epart = Ok st /\
    forall f W0 w0 fuel tfinal dt l t F0, started_with B f -> values_of q5_zero SIZE (se_domains st) W0 w0 -> (0 < tfinal)%R ->
    longest cells nodes (coefficients co) cfl W0 dt -> course cells nodes labels B order (coefficients co) cfl tfinal 0 dt W0 l t -> (2 <= fuel)%nat ->
    (tfinal < 50 * dt)%R -> 2 <= zlen l -> sw_saving_program fuel f order co cfl tfinal at_node ord SIZE st w0 F0 = Err ZeroDivision.
Proof.
  intros f32 SIZE cells nodes labels npart0 epart B order co cfl at_node ord RG HC HD TE PO. sw_setup f32 RG st E RP CS HX RU RV. exists st. split; [exact E|].
  intros f W0 w0 fuel tfinal dt l t F0 HS HV TP LO CO LE TOT L2.
  destruct (Properties_save.C91_save f32 2 SIZE cells nodes labels npart0 epart VM VS) as (st' & E' & SV). rewrite E in E'. injection E' as <-.
  destruct (start_ok SIZE cells nodes labels npart0 epart st VS RP CS B FU FV RU RV order f W0 w0 HS HV) as (s0 & E0 & ST0).
  destruct (time_ok SIZE cells nodes labels npart0 epart st VM VS RP CS B co cfl HC HD W0 s0 (proj1 ST0) (proj1 LO)) as (d & E1 & DP & LO').
  pose proof (longest_unique cells nodes (coefficients co) cfl W0 W0 dt d (fun _ _ => eq_refl) LO LO') as EQ. subst d.
  set (own := match f with None => true | Some _ => false end).
  pose proof (fun own dt W V dt' s => turn_complete SIZE cells nodes labels npart0 epart st VM PL VS RP SC CS HX SP B FU FV RU RV order co cfl HC HD own dt W V dt' s (terms_on co TE)) as TC.
  destruct l as [|V1 [|V2 l]]; [exfalso; change (zlen (@nil (Z -> q5))) with 0 in L2; lia | exfalso; change (zlen [V1]) with 1 in L2; lia|].
  inversion CO as [|? ? ? ? dt1 ? ? H1 STEP1 LO1 CO1]; subst. inversion CO1 as [|? ? ? ? dt2 ? ? H2 STEP2 LO2 CO2]; subst.
  destruct (TC own dt W0 V1 dt1 s0 ST0 STEP1 LO1) as (s1 & T1 & ST1 & SH1). destruct (TC own dt1 V1 V2 dt2 s1 ST1 STEP2 LO2) as (s2 & T2 & ST2 & SH2).
  destruct (c93_offers SIZE cells nodes labels npart0 epart st B order at_node V1 s1 VM VS RP (conj ST1 SH1)) as (fld & _ & OF).
  assert (ET : py_int ((tfinal - 0) / dt / 50)%R = 0).
  { apply py_int_is. - apply Rmult_le_pos; [apply Rmult_le_pos; [lra | left; apply Rinv_0_lt_compat; exact DP] | lra].
    - replace ((tfinal - 0) / dt / 50)%R with (tfinal / (50 * dt))%R by (field; lra). split; [apply Rmult_le_reg_r with (50 * dt)%R | apply Rmult_lt_reg_r with (50 * dt)%R]; try lra; unfold Rdiv; rewrite Rmult_assoc, Rinv_l by lra; lra. }
  unfold sw_saving_program. rewrite E0. cbn [bind]. rewrite E1. cbn [bind]. cbv zeta. rewrite ET. fold own.
  pose proof (saving_fails 2 SIZE cells nodes st SV at_node ord PO (turn_of SIZE st order co cfl own) (fun x => sh_h (snd x)) (fun _ => 0) true tfinal 0%R (dt, s0) dt dt1 (dt1, s1) dt1 dt2 (dt2, s2) fuel dt (emptied F0) fld) as SF.
  unfold turn_of in SF. cbn [fst snd] in SF. rewrite SF; [reflexivity | exact H1 | rewrite T1; reflexivity | exact H2 | rewrite T2; reflexivity | reflexivity | exact OF | apply empty_directory | exact LE].
Qed.
Print Assumptions C93_few_turns_refuted.
