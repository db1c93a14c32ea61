(** * Proofs_run24: the loop of the shallow-water program on all the ranks. *)
From Coq Require Import String Reals Lra Psatz Permutation Sorted.
From Verif Require Import Py PyLemmas Model_part Spec_part Model_label Model_conn Spec_conn Proofs_conn1 Proofs_conn2 Model_geom Spec_geom Proofs_geom1 Proofs_geom2 Proofs_geom3
  Model_halo Spec_halo Model_interp Spec_interp Spec_lsq Proofs_lsq Model_fvm Spec_fvm Proofs_fvm1 Proofs_fvm2 Model_bc Spec_bc Spec_bc3 Proofs_label Proofs_bc Proofs_bc2 Proofs_bc3 Model_domain Spec_domain
  Model_comm Model_parallel Spec_parallel Proofs_parallel1 Model_run Spec_run Proofs_run1 Proofs_run2 Proofs_run3 Proofs_run4 Proofs_run5 Proofs_run6 Spec_run2 Model_run2 Proofs_run7 Proofs_run8 Proofs_run9 Proofs_run10 Proofs_run11 Proofs_run12 Proofs_run13 Proofs_run14 Proofs_run15.
From Verif Require Import Model_sw Proofs_sw5 Proofs_sw6 Proofs_sw7 Model_run3 Spec_run4 Proofs_run17 Proofs_run18 Proofs_run19 Proofs_run20 Proofs_run21 Proofs_run22 Proofs_run23.
From Verif Require Spec_sw Properties_sw Proofs_sw8.
Open Scope Z_scope.


Section Ranks24.
Context (SIZE : Z) (cells : list (list Z)) (nodes : list pt) (labels npart0 epart : list Z) (st : setting).
Hypothesis VM : valid_mesh 2 cells nodes labels.
Hypothesis PL : planar nodes.
Hypothesis VS : valid_split 2 SIZE cells nodes npart0 epart.
Notation Ds := (se_domains st).
Notation Dr := (domain_of (se_domains st)).
Hypothesis RP : represents 2 SIZE cells nodes labels epart Ds.
Hypothesis SC : star_connected 2 cells.
Hypothesis CS : forall r, 0 <= r < SIZE -> consistent 2 (Dr r).
Hypothesis HX : 1 < SIZE -> forall (V : Type) (d : V) (X : Z -> V) (w : list (list V)), values_of d SIZE Ds X w -> exists halo, update_halo_value SIZE (se_comms st) w = Ok halo /\ halo_values_of d SIZE Ds X halo.
Hypothesis SP : spanned 2 cells nodes.
Notation PAr := (rp_part _ _ _ _ _ _ _ RP).
Notation size1 := (size11 2 SIZE cells nodes npart0 epart VS).
Notation dom r Hr := (dom11 2 SIZE cells nodes labels epart st RP r Hr).
Notation sizes := (Proofs_run5.sizes 2 SIZE cells nodes labels epart st RP).
Context (B : flow).
Hypothesis FU : flow_bc (fl_ubc B) (fl_uvs B).
Hypothesis FV : flow_bc (fl_vbc B) (fl_vvs B).
Hypothesis RU : readable SIZE st (fl_ubc B).
Hypothesis RV : readable SIZE st (fl_vbc B).
Context (order : Z) (co : swcoef) (cfl : R).
Hypothesis HCFL : (0 < cfl)%R.
Hypothesis HD : (0 <= co_Dx co + co_Dy co)%R.
Notation E := {| fe_Dx := co_Dx co; fe_Dy := co_Dy co; fe_Mann := co_Mann co; fe_fc := co_fc co |}.
Notation five := (five SIZE st B).
Notation state := (state SIZE st B order).
Notation gcell_cell := (gcell_cell SIZE cells nodes labels epart st RP).
Notation facets_of c := (facets (cell cells c)).
Notation PL2 := (fun _ : 2 = 2 => PL).
Notation W1 dt W := (fun c : Z => slowed E dt (W c)).
Notation all_terms := (forallb (fun t => has_term t (co_terms co)) ["convective"; "dissipation"; "source"; "coriolis"]%string = true).

Lemma holds_ext bc vs X Y l : (forall c, iscell cells c -> X c = Y c) -> holds SIZE st bc vs X l -> holds SIZE st bc vs Y l.
Proof.
  intros EX (ws & L & (LW & V) & H). exists ws. split; [exact L|]. split; [|exact H]. split; [exact LW|]. intros r Hr. destruct (V r Hr) as (V1 & V2). split; [exact V1|]. intros c Hc. rewrite (V2 c Hc). apply EX, (gcell_cell r c Hr Hc).
Qed.
Lemma state_ext W V s : (forall c, iscell cells c -> W c = V c) -> state W s -> state V s.
Proof.
  intros EW ([A1 A2 A3 A4 A5] & Z0 & FS). split; [|split; assumption]. constructor.
  - apply (holds_ext _ _ (fun c => q_h (W c))); [intros c Hc; rewrite (EW c Hc); reflexivity | exact A1].
  - apply (holds_ext _ _ (fun c => q_hu (W c))); [intros c Hc; rewrite (EW c Hc); reflexivity | exact A2].
  - apply (holds_ext _ _ (fun c => q_hv (W c))); [intros c Hc; rewrite (EW c Hc); reflexivity | exact A3].
  - apply (holds_ext _ _ (fun c => q_hc (W c))); [intros c Hc; rewrite (EW c Hc); reflexivity | exact A4].
  - apply (holds_ext _ _ (fun c => q_Z (W c))); [intros c Hc; rewrite (EW c Hc); reflexivity | exact A5].
Qed.
Notation upd_flow := (update_values_flow SIZE cells nodes labels npart0 epart st VS RP CS HX).
Lemma update_ranks own W s : state W s -> exists s1, sw_update_values own SIZE st s = Ok s1 /\ state W s1 /\ fresh SIZE cells nodes labels st W s1.
Proof.
  intros ([A1 A2 A3 A4 A5] & Z0 & FS). unfold sw_update_values.
  destruct (upd_flow _ _ _ _ free_flow (fun r _ => free_readable _) A1) as (h & E1 & H1). rewrite E1. cbn [bind].
  assert (HU : exists hu, (if own then update_values SIZE st (sh_hu s) else ret sh_hu s) = Ok hu /\ holds SIZE st (fl_ubc B) (fl_uvs B) (fun c => q_hu (W c)) hu).
  { destruct own; [destruct (upd_flow _ _ _ _ FU RU A2) as (x & Ex & Hx); exists x; split; [exact Ex | exact (proj1 Hx)] | exists (sh_hu s); auto]. }
  destruct HU as (hu & E2 & H2). rewrite E2. cbn [bind].
  assert (HV : exists hv, (if own then update_values SIZE st (sh_hv s) else ret sh_hv s) = Ok hv /\ holds SIZE st (fl_vbc B) (fl_vvs B) (fun c => q_hv (W c)) hv).
  { destruct own; [destruct (upd_flow _ _ _ _ FV RV A3) as (x & Ex & Hx); exists x; split; [exact Ex | exact (proj1 Hx)] | exists (sh_hv s); auto]. }
  destruct HV as (hv & E3 & H3). rewrite E3. cbn [bind].
  destruct (upd_flow _ _ _ _ free_flow (fun r _ => free_readable _) A4) as (hc & E4 & H4). rewrite E4. cbn [bind]. destruct (upd_flow _ _ _ _ free_flow (fun r _ => free_readable _) A5) as (z & E5 & H5). rewrite E5. cbn [bind].
  eexists. split; [reflexivity|]. split; [|split; [exact H1 | split; [exact H4 | exact H5]]]. split; [|split; [exact Z0 | exact FS]].
  constructor; cbn [sh_h sh_hu sh_hv sh_hc sh_Z]; [exact (proj1 H1) | exact H2 | exact H3 | exact (proj1 H4) | exact (proj1 H5)].
Qed.
(** h is shown, with its values at the nodes *)
Definition shown_h (W : Z -> q5) (s : sw_held) : Prop := shows 2 SIZE cells nodes labels st free [] (fun c => q_h (W c)) (sh_h s) /\ node_values 2 SIZE cells nodes labels st free [] (fun c => q_h (W c)) (sh_h s).
Lemma turn_end W s dt : state W s -> sw_time_step co cfl SIZE st s = Ok dt ->
  exists s', (do h <- interpolate_celltonode SIZE st (sh_h s); ret (dt, {| sh_h := h; sh_hu := sh_hu s; sh_hv := sh_hv s; sh_hc := sh_hc s; sh_Z := sh_Z s; sh_gh := sh_gh s; sh_gc := sh_gc s; sh_face := sh_face s |})) = Ok (dt, s') /\
    state W s' /\ shown_h W s'.
Proof.
  intros ([A1 A2 A3 A4 A5] & Z0 & FS) ET.
  destruct (interpolate_ok 2 SIZE cells nodes labels npart0 epart st VM PL2 VS RP SC CS HX free [] free_valid (free_corners cells labels epart) SP _ _ A1) as (h & E1 & H1 & N1). rewrite E1. cbn [bind].
  eexists. split; [reflexivity|]. split; [|split; [exact H1 | exact N1]]. split; [|split; [exact Z0 | exact FS]]. constructor; cbn [sh_h sh_hu sh_hv sh_hc sh_Z]; [exact (shows_holds _ _ _ _ _ _ _ _ _ _ H1) | assumption..].
Qed.
Notation core := (update_core SIZE cells nodes labels npart0 epart st VM PL VS RP SC CS HX SP B FU FV RU RV order co).
Lemma turn_complete own dt W V dt' s : all_terms -> state W s -> sw_step cells nodes labels B order E dt W V -> longest cells nodes E cfl V dt' ->
  exists s', sw_turn own order co cfl dt SIZE st s = Ok (dt', s') /\ state V s' /\ shown_h V s'.
Proof.
  intros TE ST STEP LO. unfold sw_turn. destruct (update_ranks own W s ST) as (s1 & E1 & ST1 & FR). rewrite E1. cbn [bind].
  destruct (core dt W s1 TE ST1 FR (proj1 STEP)) as (Sl & Tl & Ps & N & G & SL & TR & CO & _). destruct (step_with cells nodes labels B order E VM dt W V Sl Tl Ps N G SL TR STEP) as (Phi & H & HP & HDp & HV).
  destruct (CO Phi H HP HDp) as (s2 & E2 & ST2). rewrite E2. cbn [bind]. apply (state_ext _ V) in ST2; [|intros c Hc; symmetry; exact (HV c Hc)].
  destruct (time_ok SIZE cells nodes labels npart0 epart st VM VS RP CS B co cfl HCFL HD V s2 (proj1 ST2) (proj1 LO)) as (d & E3 & _ & LO'). rewrite E3. cbn [bind]. rewrite (longest_unique cells nodes E cfl V V dt' d (fun _ _ => eq_refl) LO LO').
  destruct (turn_end V s2 d ST2 E3) as (s3 & E4 & Q). rewrite E4. exists s3. split; [reflexivity | exact Q].
Qed.
Lemma turn_sound own dt W s dt' s' : state W s -> sw_turn own order co cfl dt SIZE st s = Ok (dt', s') ->
  exists V, sw_step cells nodes labels B order E dt W V /\ longest cells nodes E cfl V dt' /\ state V s' /\ shown_h V s'.
Proof.
  intros ST ET. unfold sw_turn in ET. destruct (update_ranks own W s ST) as (s1 & E1 & ST1 & FR). rewrite E1 in ET. cbn [bind] in ET. apply bind_ok in ET as (s2 & E2 & ET). apply bind_ok in ET as (d & E3 & ET).
  assert (TE : all_terms) by (unfold sw_update_solution in E2; destruct (forallb _ _); [reflexivity | discriminate E2]).
  assert (WET : forall c, iscell cells c -> (0 < q_h (W c))%R /\ friction_factor E dt (W c) <> 0%R).
  { pose proof E2 as E2'. unfold sw_update_solution in E2'. rewrite TE in E2'. cbn [negb] in E2'. apply bind_ok in E2' as (sf & EF & _). exact (friction_sound SIZE cells nodes labels npart0 epart st VS RP B co dt W s1 sf (proj1 ST1) EF). }
  destruct (core dt W s1 TE ST1 FR WET) as (Sl & Tl & Ps & N & G & SL & TR & CO & SO). specialize (SO s2 E2).
  assert (HP : exists Phi, forall c F, iscell cells c -> In F (facets_of c) -> flux cells nodes labels B order (W1 dt W) Sl Tl Ps c F = Some (Phi c F)).
  { exists (fun c F => match flux cells nodes labels B order (W1 dt W) Sl Tl Ps c F with Some x => x | None => q5_zero end). intros c F Hc HF. specialize (SO c F Hc HF). destruct (flux _ _ _ _ _ _ _ _ _ c F); [reflexivity | congruence]. }
  destruct HP as (Phi & HP).
  assert (W1ET : forall c, iscell cells c -> (0 < q_h (W1 dt W c))%R) by (intros c Hc; exact (proj1 (WET c Hc))).
  destruct (finite_choice (fun _ : list Z => 0%R) (zlen cells) (fun c H => part_depths cells nodes labels B (W1 dt W) c H) (zlen_nonneg _)) as (H & HH).
  { intros c Hc. exact (depths_exist_mesh cells nodes labels VM B (W1 dt W) W1ET c Hc). }
  destruct (CO Phi H HP HH) as (s2' & E2' & ST2). rewrite E2 in E2'. injection E2' as <-. set (V := stepped cells nodes labels B E dt (W1 dt W) Phi G H) in *. exists V.
  assert (STEP : sw_step cells nodes labels B order E dt W V). { split; [exact WET|]. exists Sl, Tl, Ps, N, G, Phi, H. split; [exact SL|]. split; [exact TR|]. split; [exact HP|]. split; [exact HH|]. intros c _. reflexivity. }
  split; [exact STEP|]. pose proof (time_sound SIZE cells nodes labels npart0 epart st VS RP B co cfl V s2 d (proj1 ST2) E3) as VW.
  destruct (time_ok SIZE cells nodes labels npart0 epart st VM VS RP CS B co cfl HCFL HD V s2 (proj1 ST2) VW) as (d2 & E3' & _ & LO). rewrite E3 in E3'. injection E3' as <-.
  destruct (turn_end V s2 d ST2 E3) as (s3 & E4 & Q). rewrite E4 in ET. injection ET as <- <-. split; [exact LO | exact Q].
Qed.
(** the loop *)
Lemma nodal_ext X Y g v : (forall c, iscell cells c -> X c = Y c) -> nodal_value 2 cells nodes labels free [] X g v -> nodal_value 2 cells nodes labels free [] Y g v.
Proof. intros EX. exact (nodal_same 2 cells nodes labels free [] VM X Y EX g v). Qed.
Lemma nodes_ext X Y l : (forall c, iscell cells c -> X c = Y c) -> node_values 2 SIZE cells nodes labels st free [] X l -> node_values 2 SIZE cells nodes labels st free [] Y l.
Proof.
  intros EX H r Hr. destruct (H r Hr) as (v & n & E1 & E2 & E3 & E4). exists v, n. split; [exact E1|]. split; [exact E2|]. split; [exact E3|]. intros k Hk. exact (nodal_ext _ _ _ _ EX (E4 k Hk)).
Qed.
Notation nodes_h V s := (node_values 2 SIZE cells nodes labels st free [] (fun c : Z => q_h (V c)) (sh_h s)).
Lemma loop_sound own tfinal : forall fuel time dt W s t s', state W s -> sw_loop fuel own order co cfl SIZE st tfinal time dt s = Ok (Some (t, s')) ->
  exists n V, (n <= fuel)%nat /\ evolution cells nodes labels B order E cfl tfinal n time dt W t V /\ state V s' /\ (n = O \/ nodes_h V s').
Proof.
  assert (DONE : forall (fuel : nat) time dt W s t s', state W s -> ~ (time < tfinal)%R -> Ok (Some (time, s)) = Ok (Some (t, s')) ->
    exists n V, (n <= fuel)%nat /\ evolution cells nodes labels B order E cfl tfinal n time dt W t V /\ state V s' /\ (n = O \/ nodes_h V s') /\ (n = O -> V = W /\ s' = s)).
  { intros fuel time dt W s t s' ST L EL. injection EL as <- <-. exists O, W. split; [lia|]. split; [apply ev_done; [lra | reflexivity]|]. auto. }
  assert (GEN : forall fuel time dt W s t s', state W s -> sw_loop fuel own order co cfl SIZE st tfinal time dt s = Ok (Some (t, s')) ->
    exists n V, (n <= fuel)%nat /\ evolution cells nodes labels B order E cfl tfinal n time dt W t V /\ state V s' /\ (n = O \/ nodes_h V s') /\ (n = O -> V = W /\ s' = s)).
  { induction fuel as [|fuel IH]; intros time dt W s t s' ST EL; cbn [sw_loop] in EL; destruct (Rlt_dec time tfinal) as [L|L]; [discriminate EL | exact (DONE _ _ _ _ _ _ _ ST L EL) | | exact (DONE _ _ _ _ _ _ _ ST L EL)].
    apply bind_ok in EL as ((dt' & s1) & E1 & EL). cbn [fst snd] in EL. destruct (turn_sound own dt W s dt' s1 ST E1) as (V & STEP & LO & ST1 & SH).
    destruct (IH _ _ V s1 t s' ST1 EL) as (n & U & LE & EV & STU & SHU & N0). exists (Datatypes.S n), U. split; [lia|]. split; [exact (ev_step _ _ _ _ _ _ _ _ n time dt W V dt' t U L STEP LO EV)|]. split; [exact STU|]. split; [|discriminate]. right.
    destruct SHU as [EN | SHU]; [|exact SHU]. destruct (N0 EN) as (-> & ->). exact (proj2 SH). }
  intros fuel time dt W s t s' ST EL. destruct (GEN _ _ _ _ _ _ _ ST EL) as (n & V & A0 & A1 & A2 & A3 & _). exists n, V. auto.
Qed.
Lemma loop_complete own tfinal n : all_terms -> forall fuel time dt W s t V, (n <= fuel)%nat -> state W s -> evolution cells nodes labels B order E cfl tfinal n time dt W t V ->
  exists s', sw_loop fuel own order co cfl SIZE st tfinal time dt s = Ok (Some (t, s')) /\ state V s' /\ (n = O \/ nodes_h V s').
Proof.
  intros TE. assert (GEN : forall n fuel time dt W s t V, (n <= fuel)%nat -> state W s -> evolution cells nodes labels B order E cfl tfinal n time dt W t V ->
    exists s', sw_loop fuel own order co cfl SIZE st tfinal time dt s = Ok (Some (t, s')) /\ state V s' /\ (n = O \/ nodes_h V s') /\ (n = O -> s' = s /\ forall c, iscell cells c -> W c = V c)).
  { clear n. induction n as [|n IH]; intros fuel time dt W s t V LE ST EV; inversion EV; subst.
    - exists s. split; [destruct fuel; cbn [sw_loop]; (destruct (Rlt_dec t tfinal); [lra | reflexivity])|]. split; [|split; [left; reflexivity|]].
      + apply (state_ext W); [intros c Hc; symmetry; auto | exact ST].
      + intros _. split; [reflexivity|]. intros c Hc. symmetry. auto.
    - destruct fuel as [|fuel]; [lia|]. match goal with HS : sw_step _ _ _ _ _ _ dt W ?V1, HL : longest _ _ _ _ ?V1 ?d1, HE : evolution _ _ _ _ _ _ _ _ n _ ?d1 ?V1 _ _ |- _ =>
        destruct (turn_complete own dt W V1 d1 s TE ST HS HL) as (s1 & E1 & ST1 & SH1); destruct (IH fuel _ _ _ s1 _ _ ltac:(lia) ST1 HE) as (s' & E2 & ST2 & SH2 & N0) end.
      exists s'. split; [cbn [sw_loop]; destruct (Rlt_dec time tfinal); [|lra]; rewrite E1; cbn [bind fst snd]; exact E2|]. split; [exact ST2|]. split; [|discriminate]. right.
      destruct SH2 as [EN | SH2]; [|exact SH2]. destruct (N0 EN) as (-> & EQ). refine (nodes_ext _ _ _ _ (proj2 SH1)). intros c Hc. rewrite (EQ c Hc). reflexivity. }
  intros fuel time dt W s t V LE ST EV. destruct (GEN n fuel time dt W s t V LE ST EV) as (s' & A1 & A2 & A3 & _). exists s'. auto.
Qed.
(** *** The start *)
Lemma zeros_slopes : slopes_of SIZE st (fun _ => vzero) (fun _ => 0%R) (map zero_gradients Ds).
Proof.
  pose proof (rp_count _ _ _ _ _ _ _ RP) as RC. split; [rewrite zlen_map; exact RC|]. intros r Hr. destruct (sizes r Hr) as (C1 & C2).
  exists (zero_gradients (Dr r)). split; [apply get_map; [exact (dom r Hr) | lia]|].
  unfold zero_gradients. cbn [gr_cell gr_psi gr_halo gr_psih]. rewrite !zlen_zeros_like by apply zlen_nonneg. rewrite C1, C2. split; [auto|]. split; intros k Hk; (split; apply nthZ_zeros_like; exact Hk).
Qed.
Lemma start_ok f W0 w0 : (f = Some ((fl_ubc B, fl_uvs B), (fl_vbc B, fl_vvs B)) \/ f = None /\ B = {| fl_ubc := free; fl_uvs := []; fl_vbc := free; fl_vvs := [] |}) ->
  values_of q5_zero SIZE Ds W0 w0 -> exists s, sw_start f SIZE st w0 = Ok s /\ state W0 s.
Proof.
  intros HF HV. pose proof (fun k => field_values SIZE st W0 w0 k HV) as FVL.
  pose proof (variable_ok SIZE cells nodes labels npart0 epart st VS RP CS) as VO.
  assert (O1 : option_map fst f = Some (fl_ubc B, fl_uvs B) \/ option_map fst f = None /\ fl_ubc B = free /\ fl_uvs B = []) by (destruct HF as [-> | (-> & ->)]; [left; reflexivity | right; auto]).
  assert (O2 : option_map snd f = Some (fl_vbc B, fl_vvs B) \/ option_map snd f = None /\ fl_vbc B = free /\ fl_vvs B = []) by (destruct HF as [-> | (-> & ->)]; [left; reflexivity | right; auto]).
  assert (O0 : forall o : option (list (loc * bctype) * list (loc * bcval)), o = None -> o = Some (free, []) \/ o = None /\ free = free /\ @nil (loc * bcval) = []) by (intros o ->; right; auto).
  unfold sw_start. destruct (VO None free [] _ _ (O0 None eq_refl) free_flow (fun r _ => free_readable _) (FVL q_h)) as (h & E1 & H1). rewrite E1. cbn [bind].
  destruct (VO _ _ _ _ _ O1 FU RU (FVL q_hu)) as (hu & E2 & H2). rewrite E2. cbn [bind]. destruct (VO _ _ _ _ _ O2 FV RV (FVL q_hv)) as (hv & E3 & H3). rewrite E3. cbn [bind].
  destruct (VO None free [] _ _ (O0 None eq_refl) free_flow (fun r _ => free_readable _) (FVL q_hc)) as (hc & E4 & H4). rewrite E4. cbn [bind].
  destruct (VO None free [] _ _ (O0 None eq_refl) free_flow (fun r _ => free_readable _) (FVL q_Z)) as (z & E5 & H5). rewrite E5. cbn [bind].
  eexists. split; [reflexivity|]. split; [|split].
  - constructor; cbn [sh_h sh_hu sh_hv sh_hc sh_Z]; assumption.
  - intros _. split; exact zeros_slopes.
  - intros r Hr. exists (zeros_like p0 (zlen (dm_cellid (Dr r)))). split; [apply (get_map (fun D => zeros_like p0 (zlen (dm_cellid D)))); [exact (dom r Hr) | rewrite (rp_count _ _ _ _ _ _ _ RP); exact Hr] | apply zlen_zeros_like, zlen_nonneg].
Qed.
(** *** The program *)
Notation flow_is f := (f = Some ((fl_ubc B, fl_uvs B), (fl_vbc B, fl_vvs B)) \/ f = None /\ B = {| fl_ubc := free; fl_uvs := []; fl_vbc := free; fl_vvs := [] |}).
Lemma program_sound f fuel tfinal W0 w0 t s : flow_is f -> values_of q5_zero SIZE Ds W0 w0 -> sw_program fuel f order co cfl tfinal SIZE st w0 = Ok (Some (t, s)) ->
  exists dt n V, (n <= fuel)%nat /\ longest cells nodes E cfl W0 dt /\ evolution cells nodes labels B order E cfl tfinal n 0 dt W0 t V /\ state V s /\ (n = O \/ nodes_h V s).
Proof.
  intros HF HV EP. unfold sw_program in EP. destruct (start_ok f W0 w0 HF HV) as (s0 & E0 & ST0). rewrite E0 in EP. cbn [bind] in EP. apply bind_ok in EP as (dt & E1 & EP).
  pose proof (time_sound SIZE cells nodes labels npart0 epart st VS RP B co cfl W0 s0 dt (proj1 ST0) E1) as VW.
  destruct (time_ok SIZE cells nodes labels npart0 epart st VM VS RP CS B co cfl HCFL HD W0 s0 (proj1 ST0) VW) as (d2 & E1' & _ & LO). rewrite E1 in E1'. injection E1' as <-.
  destruct (loop_sound _ tfinal fuel _ _ W0 s0 t s ST0 EP) as (n & V & Q). exists dt, n, V. tauto.
Qed.
Lemma program_complete f fuel tfinal W0 w0 dt n t V : flow_is f -> all_terms -> values_of q5_zero SIZE Ds W0 w0 -> longest cells nodes E cfl W0 dt -> evolution cells nodes labels B order E cfl tfinal n 0 dt W0 t V -> (n <= fuel)%nat ->
  exists s, sw_program fuel f order co cfl tfinal SIZE st w0 = Ok (Some (t, s)) /\ state V s /\ (n = O \/ nodes_h V s).
Proof.
  intros HF TE HV LO EV LE. unfold sw_program. destruct (start_ok f W0 w0 HF HV) as (s0 & E0 & ST0). rewrite E0. cbn [bind].
  destruct (time_ok SIZE cells nodes labels npart0 epart st VM VS RP CS B co cfl HCFL HD W0 s0 (proj1 ST0) (proj1 LO)) as (d & E1 & _ & LO'). rewrite E1. cbn [bind].
  rewrite <- (longest_unique cells nodes E cfl W0 W0 dt d (fun _ _ => eq_refl) LO LO'). destruct (loop_complete (match f with None => true | Some _ => false end) tfinal n TE fuel _ _ W0 s0 t V LE ST0 EV) as (s & Q). exists s. exact Q.
Qed.
End Ranks24.
