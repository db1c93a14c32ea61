(** * Properties_run8: what the Darcy and streamer programs leave in the directory results (C94).  Vocabulary: [Spec_run9], [Spec_run8]. *)
From Coq Require Import String Reals Lra Permutation Sorted.
From Verif Require Import Py PyLemmas Model_part Spec_part Model_label Model_conn Spec_conn Model_geom Spec_geom Proofs_geom1 Model_interp Spec_interp Spec_lsq Model_fvm Spec_fvm Proofs_fvm1 Proofs_fvm2 Model_bc Spec_bc Spec_bc3
  Model_domain Spec_domain Model_parallel Spec_parallel Properties_geom Properties_parallel Model_comm Model_run Spec_run Proofs_run1 Proofs_run3 Proofs_run5 Proofs_run6 Properties_run Spec_run2 Model_run2 Proofs_run7 Proofs_run11 Proofs_run13 Proofs_run14 Proofs_run15 Spec_run3 Proofs_run16 Properties_run2
  Model_poisson Spec_poisson Spec_poisson2 Spec_poisson3 Proofs_poisson6 Proofs_poisson7 Proofs_poisson8 Proofs_poisson9 Proofs_poisson10 Properties_poisson Properties_poisson2 Model_run4 Spec_run6 Proofs_run30 Proofs_run31 Proofs_run32 Proofs_run33 Properties_run4 Model_run5 Spec_run7.
From Verif Require Import Model_linsys.
From Verif Require Import Spec_streamer.
From Verif Require Model_streamer.
From Verif Require Import Proofs_run34 Proofs_run35 Proofs_run36 Proofs_run37.
From Verif Require Spec_linsys Proofs_linsys5 Properties_save Properties_run6.
From Verif Require Import Model_save Spec_save Model_run6 Spec_run8 Proofs_run38 Model_run7 Spec_run9 Proofs_run39.
Open Scope Z_scope.

Lemma plain_fits tfinal dt : (0 < tfinal)%R -> (0 < dt)%R -> 0 <= tot_plain tfinal dt /\ fits tfinal dt (tot_plain tfinal dt).
Proof.
  intros TP DP. set (x := (tfinal / dt / 50)%R). assert (EX : tfinal = (x * (50 * dt))%R) by (unfold x; field; lra). assert (PX : (0 < x)%R) by (unfold x; apply Rdiv_lt_0_compat; [apply Rdiv_lt_0_compat; assumption | lra]).
  destruct (base_Int_part x) as (A & B). assert (EP : tot_plain tfinal dt = Int_part x) by (unfold tot_plain; fold x; apply Properties_run6.py_int_is; lra). rewrite EP.
  split; [assert (-1 < Int_part x); [apply lt_IZR; lra | lia]|]. unfold fits. rewrite EX. split; [apply Rmult_le_compat_r; lra | apply Rmult_lt_compat_r; lra].
Qed.
Lemma more_plain tfinal dt : tot_more tfinal dt = tot_plain tfinal dt + 1.
Proof. reflexivity. Qed.
Lemma last_cons {A} (x : A) l d : last (x :: l) d = last l x.
Proof. revert x d. induction l as [|y l IH]; intros x d; [reflexivity|]. change (last (x :: y :: l) d) with (last (y :: l) d). rewrite !IH. reflexivity. Qed.

Section Darcy8.
Context (dim SIZE : Z) (cells : list (list Z)) (nodes : list pt) (labels npart0 epart : list Z) (st : setting).
Hypothesis VM : valid_mesh dim cells nodes labels.
Hypothesis VS : valid_split dim SIZE cells nodes npart0 epart.
Hypothesis RP : represents dim SIZE cells nodes labels epart (se_domains st).
Context (bcp : list (loc * bctype)) (vsp : list (loc * bcval)) (bc : list (loc * bctype)) (vs : list (loc * bcval)) (spread : bool) (order : Z) (K : pt) (cfl tfinal : R) (at_node : bool)
  (sol : solver) (ss : system) (es : list (list entry)) (backend : nat -> list entry -> list (option R) -> list R) (P : nat -> Z -> R).
Notation darcy_state := (darcy_state dim SIZE st bcp vsp bc vs spread).
Hypothesis TURN : forall n P0 X s, darcy_state P0 X s ->
  exists dt s' V Y, darcy_turn spread order K cfl SIZE st sol ss es (backend n) s = Ok (dt, s') /\ (0 < dt)%R /\ velocity_of dim cells nodes labels bcp vsp (P n) V /\ largest_driven dim cells nodes V K cfl dt /\
    driven_step dim cells nodes labels bc vs order V (if spread then K else vzero) dt X Y /\ darcy_state (P n) Y s' /\ Proofs_run11.shows dim SIZE cells nodes labels st bc vs Y (dk_ne s') /\ Proofs_run11.node_values dim SIZE cells nodes labels st bc vs Y (dk_ne s') /\ face_field dim cells SIZE st V (dk_gP s').
Definition darcy_turn_of (x : nat * darcy_held) : res (R * R * (nat * darcy_held)) := do q <- darcy_turn spread order K cfl SIZE st sol ss es (backend (fst x)) (snd x); ret (fst q, fst q, (Datatypes.S (fst x), snd q)).
Notation written Y := (written_field dim cells nodes labels bc vs at_node Y).
Lemma shown_offers X l : holds SIZE st bc vs X l -> Proofs_run11.shows dim SIZE cells nodes labels st bc vs X l -> Proofs_run11.node_values dim SIZE cells nodes labels st bc vs X l ->
  exists fld, written X fld /\ offers SIZE st at_node l fld.
Proof.
  intros HO SH NV. destruct at_node eqn:AN.
  - destruct (shown_nodes dim SIZE cells nodes labels npart0 epart st VM VS RP bc vs X l SH NV) as (N & NF & NN). exists (OnNodes N). split; [exists N; split; [reflexivity | exact NN]|]. apply offers_nodes; [reflexivity | destruct HO as (w & LW & _); exact LW | exact NF].
  - exists (OnCells X). split; [reflexivity|]. apply offers_cells; [reflexivity|]. exact (holds_holding dim SIZE cells nodes npart0 epart st VS bc vs X l HO).
Qed.
Hypothesis TP : (0 < tfinal)%R.
Lemma darcy_makes : forall fuel n t P0 X s, darcy_state P0 X s ->
  exists l ls flds t' s', makes darcy_turn_of tfinal t (n, s) ls t' s' /\ length ls = length l /\ (length l <= fuel)%nat /\ darcy_turns dim cells nodes labels bc vs bcp vsp spread order K cfl tfinal P n t X l t' /\
    ((tfinal <= t')%R \/ (t' < tfinal)%R /\ length l = fuel) /\ holds SIZE st bc vs (last (map snd l) X) (dk_ne (snd s')) /\
    Forall2 (fun p fld => written (snd p) fld) l flds /\ map fst ls = map fst l /\ (forall p, In p l -> (0 < fst p)%R) /\
    (forall k, ready SIZE st at_node (fun x : nat * darcy_held => dk_ne (snd x)) (tot_more tfinal) k ls flds).
Proof.
  induction fuel as [|fuel IH]; intros n t P0 X s DS; destruct (Rlt_dec t tfinal) as [HT|HT].
  1, 2, 4: exists [], [], [], t, (n, s); split; [constructor|]; split; [reflexivity|]; split; [cbn; lia|]; split; [constructor|]; split; [try (right; split; [exact HT | reflexivity]); left; lra|]; split; [exact (proj1 DS)|]; split; [constructor|]; split; [reflexivity|]; split; [intros p []|]; constructor.
  destruct (TURN n P0 X s DS) as (dt & s1 & V & Y & ET & PD & HV & HL & HS & DS1 & SH & NV & _). destruct (IH (Datatypes.S n) (t + dt)%R (P n) Y s1 DS1) as (l & ls & flds & t' & s' & G & LL & LF & DT & EN & HO & FW & EM & PP & RD).
  destruct (shown_offers Y (dk_ne s1) (proj1 DS1) SH NV) as (fld & W1 & O1). destruct (plain_fits tfinal dt TP PD) as (T0 & _).
  exists ((dt, Y) :: l), ((dt, (Datatypes.S n, s1)) :: ls), (fld :: flds), t', s'. split; [|split; [cbn [length]; lia | split; [cbn [length]; lia | split; [|split; [|split; [|split; [constructor; assumption | split; [cbn [map fst]; rewrite EM; reflexivity | split]]]]]]]].
  - apply (mk_turn darcy_turn_of tfinal t (n, s) dt dt (Datatypes.S n, s1)); [exact HT | unfold darcy_turn_of; cbn [fst snd]; rewrite ET; reflexivity | exact G].
  - econstructor; eassumption.
  - destruct EN as [EN|(EN & LE)]; [left; exact EN | right; split; [exact EN | cbn [length]; lia]].
  - cbn [map snd]. rewrite last_cons. exact HO.
  - intros p [<-|Hp]; [exact PD | exact (PP p Hp)].
  - intros k. constructor; [left; rewrite more_plain; lia | intros _; exact O1 | apply RD].
Qed.
End Darcy8.

(** C94.  The turns are those of C80. *)
Theorem C94_turns : forall dim cells nodes labels bc vs bcp vsp spread order K cfl tfinal P X l t, darcy_turns dim cells nodes labels bc vs bcp vsp spread order K cfl tfinal P 0 0 X l t ->
  darcy_flow dim cells nodes labels bc vs bcp vsp spread order K cfl tfinal P X (length l) t (last (map snd l) X).
Proof.
  intros dim cells nodes labels bc vs bcp vsp spread order K cfl tfinal P X l t H.
  assert (GEN : forall n t0 X0, darcy_flow dim cells nodes labels bc vs bcp vsp spread order K cfl tfinal P X n t0 X0 -> darcy_turns dim cells nodes labels bc vs bcp vsp spread order K cfl tfinal P n t0 X0 l t ->
    darcy_flow dim cells nodes labels bc vs bcp vsp spread order K cfl tfinal P X (n + length l) t (last (map snd l) X0)).
  { clear H. intros n t0 X0 FL H. induction H as [n t X0 | n t X0 V dt Y l t' HT HV PD HL HS H IH]; [cbn [length map last]; rewrite Nat.add_0_r; exact FL|]. cbn [length map snd]. rewrite last_cons. replace (n + Datatypes.S (length l))%nat with (Datatypes.S n + length l)%nat by lia.
    apply IH. exact (flow_turn _ _ _ _ _ _ _ _ _ _ _ _ _ _ _ _ _ _ _ _ _ FL HT HV HL HS). }
  apply (GEN O 0%R X); [|exact H]. apply flow_start. reflexivity.
Qed.
(** C94.  The Darcy program with its saves, on any number of ranks, whatever the numerical solver returns: it never fails.  If it ends, the directory holds, under the numbers 0, 1, 2, ...,
    the densities after the first turn and after the turns k for which k is a multiple of tot, where tot - 1 is the number of times that 50 time steps of turn k fit into tfinal; on the
    cells or interpolated to the nodes; and nothing else. *)
Theorem C94_darcy : forall f32 dim SIZE cells nodes labels npart0 epart condn condP at_node ord,
  let bc := conditions dim condn in let vs := given_values condn in let bcp := conditions dim condP in let vsp := given_values condP in
  regular dim SIZE cells nodes labels npart0 epart bcp vsp -> bc_valid dim bc vs -> corners_whole dim cells labels bc epart -> (forall m, Permutation (ord m) (range SIZE)) ->
  exists st, setup f32 dim SIZE cells nodes labels npart0 epart = Ok st /\
    forall sol user0 f0 n0 p00 X P0 spread order K cfl tfinal, sol = SMumps \/ sol = SPetsc -> source sol cells SIZE st user0 f0 -> values_of 0%R SIZE (se_domains st) X n0 -> values_of 0%R SIZE (se_domains st) P0 p00 ->
      (0 < cfl)%R -> (0 <= px K + py K + pz K)%R -> (0 < tfinal)%R ->
    exists es b, (forall x, zlen x = zlen cells -> (solves es b (zlen cells) x <-> poisson dim cells nodes labels bcp vsp f0 (nthZ 0%R x))) /\
      forall backend fuel F0, (forall k, zlen (backend k es b) = zlen cells) ->
      let turns := darcy_turns dim cells nodes labels bc vs bcp vsp spread order K cfl tfinal (fun k => nthZ 0%R (backend k es b)) 0 0 X in
      exists o, darcy_saving_program fuel spread order K cfl tfinal condn condP at_node ord SIZE st sol user0 backend n0 p00 F0 = Ok o /\
        match o with
        | Some (t, s, F) => exists l tots flds, turns l t /\ (length l <= fuel)%nat /\ (tfinal <= t)%R /\ holding SIZE st (last (map snd l) X) (dk_ne s) /\
            Forall2 (fun turn T => fits tfinal (fst turn) (T - 1)) l tots /\
            Forall2 (fun k fld => written_field dim cells nodes labels bc vs at_node (snd (nthZ (0%R, X) l (k - 1))) fld) (saving_turns_by tots) flds /\
            directory dim SIZE cells nodes flds F
        | None => exists l t, turns l t /\ length l = fuel /\ (t < tfinal)%R
        end.
Proof.
  intros f32 dim SIZE cells nodes labels npart0 epart condn condP at_node ord bc vs bcp vsp RG BVn CWn PO. regular_setup f32 RG st E RP CS HX. exists st. split; [exact E|].
  intros sol user0 f0 n0 p00 X P0 spread order K cfl tfinal HS S0 HN HP Hcfl HK TP. pose proof (setup_tc f32 _ _ _ _ _ _ _ _ VM VS E) as TC.
  destruct (Properties_save.C91_save f32 dim SIZE cells nodes labels npart0 epart VM VS) as (st' & E' & SV). rewrite E in E'. injection E' as <-.
  destruct (darcy_start_ok dim SIZE cells nodes labels npart0 epart st VM PL VS RP SC CS SP condn condP BV BVn spread sol user0 f0 n0 p00 X P0 HS S0 HN HP) as (s0 & ss & es & b & E1 & E2 & HB & HI & DS).
  exists (concat es), b. split; [exact HI|]. intros backend fuel F0 LB turns.
  pose proof (fun n P1 Y s H => darcy_turn_ok dim SIZE cells nodes labels npart0 epart st VM PL VS RP SC CS HX SP TC bcp vsp BV CW bc vs BVn CWn order K cfl Hcfl HK spread sol ss es b HS HB E2 (backend n) P1 Y s H (LB n)) as TURN. cbv zeta in TURN.
  destruct (darcy_makes dim SIZE cells nodes labels npart0 epart st VM VS RP bcp vsp bc vs spread order K cfl tfinal at_node sol ss es backend (fun k => nthZ 0%R (backend k (concat es) b)) TURN TP fuel 0%nat 0%R P0 X s0 DS)
    as (l & ls & flds & t & s & G & LL & LF & DT & EN & HO & FW & EM & PP & RD).
  pose proof (saving_makes dim SIZE cells nodes st SV at_node ord PO (darcy_turn_of SIZE st spread order K cfl sol ss es backend) (fun x => dk_ne (snd x)) (tot_more tfinal) false tfinal 0%R (0%nat, s0) ls t s G fuel 0%R 1 flds [] (emptied F0) (OnCells X)
    ltac:(lia) ltac:(lia) (RD 1) ltac:(discriminate) (empty_directory dim SIZE cells nodes F0)) as (I1 & I2 & _). change (zlen []) with 0 in I1, I2.
  unfold darcy_saving_program. rewrite E1. cbn [bind fst snd]. unfold darcy_turn_of in I1, I2. destruct EN as [EN|(EN & LE)].
  - destruct (I1 EN) as (F & EL & DI). exists (Some (t, snd s, F)). rewrite EL. split; [reflexivity|]. exists l, (map (fun p => tot_more tfinal (fst p)) l), (picked_by (map (fun x => tot_more tfinal (fst x)) ls) 1 flds).
    assert (ET : map (fun x : R * (nat * darcy_held) => tot_more tfinal (fst x)) ls = map (fun p : R * (Z -> R) => tot_more tfinal (fst p)) l) by (rewrite <- (map_map fst (tot_more tfinal)), <- (map_map fst (tot_more tfinal) l), EM; reflexivity).
    split; [exact DT|]. split; [exact LF|]. split; [exact EN|]. split; [exact (holds_holding dim SIZE cells nodes npart0 epart st VS bc vs _ _ HO)|]. split; [|split].
    + clear -PP TP. induction l as [|p l IH]; cbn [map]; constructor; [|apply IH; intros q Hq; apply PP; right; exact Hq]. rewrite more_plain. replace (tot_plain tfinal (fst p) + 1 - 1) with (tot_plain tfinal (fst p)) by lia. apply plain_fits; [exact TP | apply PP; left; reflexivity].
    + rewrite ET. apply (picked_by_written (fun p fld => written_field dim cells nodes labels bc vs at_node (snd p) fld)); [apply map_length | exact FW].
    + cbn [app] in DI. rewrite app_nil_r in DI. exact DI.
  - exists None. rewrite (I2 EN ltac:(lia)). split; [reflexivity|]. exists l, t. auto.
Qed.
Print Assumptions C94_darcy.
