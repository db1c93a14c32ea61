(** * Properties_run7: what the transport programs leave in the directory results (C93, continued). *)
From Coq Require Import Reals Lra Permutation Sorted.
From Verif Require Import Py PyLemmas Model_part Spec_part Model_label Model_conn Spec_conn Model_geom Spec_geom Proofs_geom1 Model_interp Spec_interp Spec_lsq Model_fvm Spec_fvm Proofs_fvm1 Proofs_fvm2 Model_bc Spec_bc
  Model_domain Spec_domain Model_parallel Spec_parallel Properties_geom Properties_parallel Model_comm Model_run Spec_run Proofs_run1 Proofs_run3 Proofs_run5 Proofs_run6 Properties_run Spec_run2 Model_run2 Proofs_run7 Proofs_run13 Proofs_run14 Proofs_run15 Spec_run3 Proofs_run16 Properties_run2.
From Verif Require Properties_save.
From Verif Require Import Model_sw Model_run3 Spec_run4 Model_save Spec_save Model_run6 Spec_run8 Proofs_run38 Properties_run6.
Open Scope Z_scope.

Section Steps.
Context (dim SIZE : Z) (cells : list (list Z)) (nodes : list pt) (labels npart0 epart : list Z) (st : setting) (bc : list (loc * bctype)) (vs : list (loc * bcval)) (order : Z) (U K : pt) (cfl dt tfinal : R) (at_node : bool).
Hypothesis VM : valid_mesh dim cells nodes labels.
Hypothesis VS : valid_split dim SIZE cells nodes npart0 epart.
Hypothesis RP : represents dim SIZE cells nodes labels epart (se_domains st).
Notation full_state := (Proofs_run14.full_state SIZE st bc vs).
Hypothesis LS : largest_full cells nodes U K cfl dt.
Hypothesis TURN : forall X hs, full_state X hs -> exists dt hs' Y, full_turn order U K cfl SIZE st hs = Ok (dt, hs') /\ (0 < dt)%R /\ largest_full cells nodes U K cfl dt /\
  full_step dim cells nodes labels bc vs order U K dt X Y /\ full_state Y hs' /\ Proofs_run11.shows dim SIZE cells nodes labels st bc vs Y (map fh_ne hs') /\ Proofs_run11.node_values dim SIZE cells nodes labels st bc vs Y (map fh_ne hs').
Definition full_turn_of (hs : list full_held) : res (R * R * list full_held) := do q <- full_turn order U K cfl SIZE st hs; ret (fst q, fst q, snd q).
Notation written Y := (written_field dim cells nodes labels bc vs at_node Y).
Lemma full_offers Y hs : full_state Y hs -> Proofs_run11.shows dim SIZE cells nodes labels st bc vs Y (map fh_ne hs) -> Proofs_run11.node_values dim SIZE cells nodes labels st bc vs Y (map fh_ne hs) ->
  exists fld, written Y fld /\ offers SIZE st at_node (map fh_ne hs) fld.
Proof.
  intros (LH & HO & _) SH NV. destruct at_node eqn:AN.
  - destruct (shown_nodes dim SIZE cells nodes labels npart0 epart st VM VS RP bc vs Y _ SH NV) as (N & NF & NN). exists (OnNodes N). split; [exists N; split; [reflexivity | exact NN]|]. apply offers_nodes; [reflexivity | rewrite zlen_map; exact LH | exact NF].
  - exists (OnCells Y). split; [reflexivity|]. apply offers_cells; [reflexivity|]. exact (holds_holding dim SIZE cells nodes npart0 epart st VS bc vs Y _ HO).
Qed.
Lemma full_goes X0 : forall n k X hs, full_state X hs -> full_steps dim cells nodes labels bc vs k order U K dt X0 X ->
  (tfinal <= INR (k + n) * dt)%R -> (forall m, (m < k + n)%nat -> (INR m * dt < tfinal)%R) ->
  exists ls hs' flds, goes full_turn_of tfinal (INR k * dt)%R hs ls (INR (k + n) * dt)%R hs' /\ length ls = n /\ (forall x, In x ls -> fst x = dt) /\
    Forall2 (fun x fld => offers SIZE st at_node (map fh_ne (snd x)) fld) ls flds /\
    Forall2 (fun j fld => exists Y, full_steps dim cells nodes labels bc vs j order U K dt X0 Y /\ written Y fld) (seq (Datatypes.S k) n) flds.
Proof.
  induction n as [|n IH]; intros k X hs HS HT T1 T2.
  - rewrite Nat.add_0_r in *. exists [], hs, []. split; [constructor; exact T1|]. split; [reflexivity|]. split; [intros x []|]. split; constructor.
  - destruct (TURN X hs HS) as (d & hs1 & Y & E & _ & LS' & FS & HS1 & SH & NV). rewrite (largest_full_unique _ _ _ _ _ _ _ LS' LS) in *. assert (HT1 : full_steps dim cells nodes labels bc vs (Datatypes.S k) order U K dt X0 Y) by (exists X; split; assumption).
    replace (k + Datatypes.S n)%nat with (Datatypes.S k + n)%nat in * by lia. destruct (IH (Datatypes.S k) Y hs1 HS1 HT1 T1 T2) as (ls & hs' & flds & G & LL & EX & FO & FW). destruct (full_offers Y hs1 HS1 SH NV) as (fld & W1 & O1).
    exists ((dt, hs1) :: ls), hs', (fld :: flds). split; [|split; [cbn [length]; lia | split; [intros x [<-|Hx]; [reflexivity | exact (EX x Hx)] | split; [constructor; assumption|]]]].
    + apply (go_turn full_turn_of tfinal _ hs dt dt hs1); [apply T2; lia | unfold full_turn_of; rewrite E; reflexivity|]. replace (INR k * dt + dt)%R with (INR (Datatypes.S k) * dt)%R by (rewrite S_INR; ring). exact G.
    + cbn [seq]. constructor; [exists Y; split; assumption | exact FW].
Qed.
End Steps.

Lemma nth_steps n k : 1 <= k <= Z.of_nat n -> nthZ O (seq 1 n) (k - 1) = Z.to_nat k.
Proof. intros H. unfold nthZ. rewrite seq_nth by lia. lia. Qed.
(** C93.  The transport program with its saves, on any number of ranks: it never fails; at its end the directory holds, under the numbers 0, 1, 2, ..., the fields the scheme gives after the first
    turn and after every tot-th turn, on the cells or interpolated to the nodes, and nothing else; the field at the end is among them only if the number of turns is 1 or a multiple of tot. *)
Theorem C93_transport : forall f32 dim SIZE cells nodes labels npart0 epart bc vs order U K cfl tfinal X at_node ord,
  regular dim SIZE cells nodes labels npart0 epart bc vs -> (0 < cfl)%R -> (0 <= px K + py K + pz K)%R -> (forall m, Permutation (ord m) (range SIZE)) ->
  exists st dt n, setup f32 dim SIZE cells nodes labels npart0 epart = Ok st /\ (0 < dt)%R /\ largest_full cells nodes U K cfl dt /\
    (tfinal <= INR n * dt)%R /\ (forall m, (m < n)%nat -> (INR m * dt < tfinal)%R) /\
    forall w0 fuel tot F0, values_of 0%R SIZE (se_domains st) X w0 -> (n <= fuel)%nat -> 0 < tot -> (IZR (tot - 1) * (50 * dt) <= Rmax 0 tfinal < IZR tot * (50 * dt))%R ->
    exists hs F flds, transport_saving_program fuel order bc vs U K cfl tfinal at_node ord SIZE st w0 F0 = Ok (Some (INR n * dt, hs, F)%R) /\
      Forall2 (fun k fld => exists Y, full_steps dim cells nodes labels bc vs (Z.to_nat k) order U K dt X Y /\ written_field dim cells nodes labels bc vs at_node Y fld) (saving_turns tot (Z.of_nat n)) flds /\
      directory dim SIZE cells nodes flds F.
Proof.
  intros f32 dim SIZE cells nodes labels npart0 epart bc vs order U K cfl tfinal X at_node ord RG HC HK PO. regular_setup f32 RG st E RP CS HX.
  set (W := map (fun r => map (fun c => X (gcell (domain_of (se_domains st) r) c)) (range (zlen (dm_loctoglob (domain_of (se_domains st) r))))) (range SIZE)). pose proof (vs_size _ _ _ _ _ _ VS) as S1.
  assert (HW : values_of 0%R SIZE (se_domains st) X W).
  { split; [unfold W; rewrite zlen_map, zlen_range; lia|]. intros r Hr. unfold W. rewrite (nthZ_map _ 0) by (rewrite zlen_range; lia). rewrite nthZ_range by lia. pose proof (zlen_nonneg (dm_loctoglob (domain_of (se_domains st) r))). split; [rewrite zlen_map, zlen_range; lia|].
    intros c Hc. unfold iscell_of in Hc. rewrite (nthZ_map _ 0) by (rewrite zlen_range; lia). rewrite nthZ_range by lia. reflexivity. }
  pose proof (full_turn_ok dim SIZE cells nodes labels npart0 epart st VM PL VS RP SC CS HX bc vs BV CW SP order U K cfl HC HK) as TURN.
  pose proof (full_start_ok dim SIZE cells nodes labels npart0 epart st VM VS RP CS bc vs BV X) as START.
  destruct (Properties_save.C91_save f32 dim SIZE cells nodes labels npart0 epart VM VS) as (st' & E' & SV). rewrite E in E'. injection E' as <-.
  destruct (START W HW) as (h0 & _ & HS0). destruct (TURN X h0 HS0) as (dt & _ & _ & _ & PD & LS & _). destruct (steps dt tfinal PD) as (n & T1 & T2).
  exists st, dt, n. split; [exact E|]. split; [exact PD|]. split; [exact LS|]. split; [exact T1|]. split; [exact T2|]. intros w0 fuel tot F0 HV Hf HT TOT.
  destruct (START w0 HV) as (hs & ES & HS).
  destruct (full_goes dim SIZE cells nodes labels npart0 epart st bc vs order U K cfl dt tfinal at_node VM VS RP LS TURN X n 0 X hs HS (fun _ _ => eq_refl) T1 T2) as (ls & hs' & flds & G & LL & EX & FO & FW).
  cbn [INR] in G. rewrite Rmult_0_l in G. cbn [Nat.add] in G.
  assert (ET : ls <> [] -> py_int (tfinal / dt / 50)%R + 1 = tot).
  { intros NE. assert (TP : (0 < tfinal)%R). { destruct n as [|n]; [destruct ls; [congruence | cbn in LL; lia]|]. pose proof (T2 O ltac:(lia)) as H0. cbn [INR] in H0. lra. } rewrite (Rmax_right 0 tfinal) in TOT by lra. rewrite minus_IZR in TOT.
    assert (EP : py_int (tfinal / dt / 50)%R = tot - 1); [|lia]. apply py_int_is; [apply Rmult_le_pos; [apply Rmult_le_pos; [lra | left; apply Rinv_0_lt_compat; exact PD] | lra]|].
    rewrite minus_IZR. replace (tfinal / dt / 50)%R with (tfinal / (50 * dt))%R by (field; lra). split; [apply Rmult_le_reg_r with (50 * dt)%R | apply Rmult_lt_reg_r with (50 * dt)%R]; try lra; unfold Rdiv; rewrite Rmult_assoc, Rinv_l by lra; lra. }
  destruct (saving_runs dim SIZE cells nodes st SV at_node ord PO (full_turn_of SIZE st order U K cfl) (map fh_ne) (fun d => py_int (tfinal / d / 50)%R + 1) false tfinal tot 0%R hs ls _ hs' G fuel 0%R 1 flds [] (emptied F0) (OnCells X)) as (F & EL & DI).
  - lia.
  - intros x Hx. rewrite (EX x Hx). apply ET. intros ->. destruct Hx.
  - lia.
  - left. lia.
  - exact FO.
  - discriminate.
  - apply empty_directory.
  - exists hs', F, (picked tot 1 flds). split; [|split].
    + unfold transport_saving_program. rewrite ES. cbn [bind]. change (zlen []) with 0 in EL. exact EL.
    + pose proof (picked_written _ O tot _ _ FW) as PW. assert (LS1 : zlen (seq 1 n) = Z.of_nat n) by (unfold zlen; rewrite seq_length; reflexivity). rewrite LS1 in PW.
      assert (GEN : forall ks fl, (forall k, In k ks -> 1 <= k <= Z.of_nat n) -> Forall2 (fun j fld => exists Y, full_steps dim cells nodes labels bc vs j order U K dt X Y /\ written_field dim cells nodes labels bc vs at_node Y fld) (map (fun k => nthZ O (seq 1 n) (k - 1)) ks) fl ->
        Forall2 (fun k fld => exists Y, full_steps dim cells nodes labels bc vs (Z.to_nat k) order U K dt X Y /\ written_field dim cells nodes labels bc vs at_node Y fld) ks fl).
      { induction ks as [|k ks IH]; intros fl Hk FF; cbn [map] in FF; inversion FF; subst fl; constructor; [|apply IH; [intros; apply Hk; right; assumption | assumption]]. rewrite <- (nth_steps n k) by (apply Hk; left; reflexivity). assumption. }
      apply GEN; [|exact PW]. intros k Hk. apply filter_In in Hk as (Hk & _). unfold range2 in Hk. apply in_map_iff in Hk as (i & <- & Hi). apply in_range in Hi. lia.
    + cbn [app] in DI. rewrite app_nil_r in DI. exact DI.
Qed.
Print Assumptions C93_transport.
