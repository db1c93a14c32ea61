(** * Properties_run3: the shallow-water program on any number of ranks (C77-C79). *)
From Coq Require Import String Reals Lra Psatz Permutation Sorted.
From Verif Require Import Py PyLemmas Model_part Spec_part Model_label Model_conn Spec_conn Proofs_conn1 Proofs_conn2 Model_geom Spec_geom Proofs_geom1 Proofs_geom2 Proofs_geom3
  Model_halo Spec_halo Model_interp Spec_interp Spec_lsq Proofs_lsq Model_fvm Spec_fvm Proofs_fvm1 Proofs_fvm2 Model_bc Spec_bc Spec_bc3 Proofs_label Proofs_bc Proofs_bc2 Proofs_bc3 Model_domain Spec_domain
  Model_comm Model_parallel Spec_parallel Proofs_parallel1 Model_run Spec_run Proofs_run1 Proofs_run2 Proofs_run3 Proofs_run4 Proofs_run5 Proofs_run6 Spec_run2 Model_run2 Proofs_run7 Proofs_run8 Proofs_run9 Proofs_run10 Proofs_run11 Proofs_run12 Proofs_run13 Proofs_run14 Proofs_run15 Spec_run3 Proofs_run16 Properties_parallel Properties_run Properties_run2.
From Verif Require Import Model_sw Proofs_sw5 Proofs_sw6 Proofs_sw7 Model_run3 Spec_run4 Proofs_run17 Proofs_run18 Proofs_run19 Proofs_run20 Proofs_run21 Proofs_run22 Proofs_run23 Proofs_run24 Proofs_run26 Proofs_run27 Proofs_run25 Proofs_run28 Proofs_run29 Spec_run5.
From Verif Require Spec_sw Properties_sw Proofs_sw8 Properties_parallel.
Open Scope Z_scope.

Lemma terms_on co : complete_terms co -> forallb (fun t => has_term t (co_terms co)) ["convective"; "dissipation"; "source"; "coriolis"]%string = true.
Proof. intros H. apply forallb_forall. intros t Ht. unfold has_term. apply existsb_exists. exists t. split; [exact (H t Ht) | apply String.eqb_refl]. Qed.
Lemma state_held SIZE cells nodes npart0 epart st B order V s : valid_split 2 SIZE cells nodes npart0 epart -> state SIZE st B order V s -> held SIZE st V s.
Proof.
  intros VS (FV & _). pose proof (fun bc vs X l => holds_holding 2 SIZE cells nodes npart0 epart st VS bc vs X l) as HH. destruct FV as [F1 F2 F3 F4 F5]. split; [exact (HH _ _ _ _ F1)|]. split; [exact (HH _ _ _ _ F2)|]. split; [exact (HH _ _ _ _ F3)|]. split; [exact (HH _ _ _ _ F4) | exact (HH _ _ _ _ F5)].
Qed.
Lemma state_nodes SIZE cells nodes labels npart0 epart st B order V s : valid_mesh 2 cells nodes labels -> valid_split 2 SIZE cells nodes npart0 epart -> represents 2 SIZE cells nodes labels epart (se_domains st) -> state SIZE st B order V s ->
  node_values 2 SIZE cells nodes labels st free [] (fun c => q_h (V c)) (sh_h s) -> depth_at_nodes cells nodes labels SIZE st V s.
Proof.
  intros VM VS RP (FV & _) NV. destruct FV as [(ws & _ & _ & HS) _ _ _ _]. destruct (nodes_field 2 SIZE cells nodes labels npart0 epart st VM VS RP free [] _ _ NV) as (N & HN & NR). exists N. split; [|exact HN].
  intros r Hr D. destruct (NR r Hr) as (v & Ev & LN & HNr). destruct (HS r Hr) as (v' & Ev' & FV). rewrite Ev in Ev'. injection Ev' as <-. exists v, (nthZ [] (va_heap v) r_node). split; [exact Ev|]. split; [apply get_nthZ; rewrite (full_heap _ _ _ _ _ FV); unfold r_node; lia|].
  split; [|exact HNr]. destruct (pa_sizes _ _ _ _ _ _ _ (rp_part _ _ _ _ _ _ _ RP r Hr)) as (_ & _ & _ & _ & _ & _ & SV & _). unfold D. lia.
Qed.
Lemma sw_readable SIZE cells nodes labels npart0 epart B st : sw_regular SIZE cells nodes labels npart0 epart B -> represents 2 SIZE cells nodes labels epart (se_domains st) ->
  (forall r, 0 <= r < SIZE -> consistent 2 (domain_of (se_domains st) r)) -> readable SIZE st (fl_ubc B) /\ readable SIZE st (fl_vbc B).
Proof.
  intros [VM PL SC SP VS FU FV [NN|RO]] RP CS.
  - split; intros r Hr l i e H; exfalso; [exact (proj1 (NN l) H) | exact (proj2 (NN l) H)].
  - split; exact (room_readable SIZE cells nodes labels npart0 epart st VM PL VS RP SC CS _ RO).
Qed.
(** the arrays determine the state: held by the same arrays, two states are equal on all cells *)
Lemma values_unique {V} (d : V) dim SIZE cells nodes labels npart0 epart Ds X X' w : valid_split dim SIZE cells nodes npart0 epart -> represents dim SIZE cells nodes labels epart Ds ->
  values_of d SIZE Ds X w -> values_of d SIZE Ds X' w -> forall c, iscell cells c -> X c = X' c.
Proof.
  intros VS RP (_ & H) (_ & H') c Hc. destruct (vs_owners _ _ _ _ _ _ VS) as (_ & OW). specialize (OW c Hc). set (r := owner epart c) in *.
  assert (HI : In c (dm_loctoglob (domain_of Ds r))). { rewrite (pa_cells _ _ _ _ _ _ _ (rp_part _ _ _ _ _ _ _ RP r OW)). unfold owned. apply filter_In. split; [apply in_range; exact Hc | apply Z.eqb_refl]. }
  apply In_nthZ with (d := -1) in HI as (i & Hi & Ei). destruct (H r OW) as (_ & A). destruct (H' r OW) as (_ & A'). specialize (A i Hi). specialize (A' i Hi). unfold gcell in A, A'. rewrite Ei in A, A'. congruence.
Qed.
Lemma held_unique SIZE cells nodes labels npart0 epart st V V' s : valid_split 2 SIZE cells nodes npart0 epart -> represents 2 SIZE cells nodes labels epart (se_domains st) -> held SIZE st V s -> held SIZE st V' s -> forall c, iscell cells c -> V c = V' c.
Proof.
  intros VS RP (A1 & A2 & A3 & A4 & A5) (B1 & B2 & B3 & B4 & B5) c Hc.
  assert (U : forall X X' l, holding SIZE st X l -> holding SIZE st X' l -> X c = X' c). { intros X X' l (w & E & HV) (w' & E' & HV'). rewrite E in E'. injection E' as <-. exact (values_unique 0%R _ _ _ _ _ _ _ _ _ _ _ VS RP HV HV' c Hc). }
  pose proof (U _ _ _ A1 B1) as E1. pose proof (U _ _ _ A2 B2) as E2. pose proof (U _ _ _ A3 B3) as E3. pose proof (U _ _ _ A4 B4) as E4. pose proof (U _ _ _ A5 B5) as E5. cbv beta in *. destruct (V c), (V' c). cbn in *. congruence.
Qed.
Ltac sw_setup f32 RG st E RP CS HX RU RV :=
  pose proof RG as [VM PL SC SP VS FU FV _]; destruct (C68_parallel_setup f32 _ _ _ _ _ _ _ VM VS) as (st & E & RP & CS & HX); destruct (sw_readable _ _ _ _ _ _ _ st RG RP CS) as (RU & RV).

(** C77.  Whatever the program ShallowWaterModel + test_sw_2d ends with on the ranks, it is the evolution of the initial state under the scheme on the whole mesh: the steps are
    as long as the waves allow, the cells of all the ranks hold the state after the last step, and the nodes hold the interpolation of its depth. *)
Theorem C77_shallow_water : forall f32 SIZE cells nodes labels npart0 epart B order co cfl,
  sw_regular SIZE cells nodes labels npart0 epart B -> (0 < cfl)%R -> (0 <= co_Dx co + co_Dy co)%R ->
  exists st, setup f32 2 SIZE cells nodes labels npart0 epart = Ok st /\
    forall f W0 w0 fuel tfinal t s, started_with B f -> values_of q5_zero SIZE (se_domains st) W0 w0 ->
    sw_program fuel f order co cfl tfinal SIZE st w0 = Ok (Some (t, s)) ->
    exists dt n V, (n <= fuel)%nat /\ longest cells nodes (coefficients co) cfl W0 dt /\ evolution cells nodes labels B order (coefficients co) cfl tfinal n 0 dt W0 t V /\
      held SIZE st V s /\ (n = O \/ depth_at_nodes cells nodes labels SIZE st V s).
Proof.
  intros f32 SIZE cells nodes labels npart0 epart B order co cfl RG HC HD. sw_setup f32 RG st E RP CS HX RU RV. exists st. split; [exact E|]. intros f W0 w0 fuel tfinal t s HS HV EP.
  destruct (program_sound SIZE cells nodes labels npart0 epart st VM PL VS RP SC CS HX SP B FU FV RU RV order co cfl HC HD f fuel tfinal W0 w0 t s HS HV EP) as (dt & n & V & LE & LO & EV & ST & NO).
  exists dt, n, V. split; [exact LE|]. split; [exact LO|]. split; [exact EV|]. split; [exact (state_held _ _ _ _ _ _ _ _ _ _ VS ST)|]. destruct NO as [NO|NO]; [left; exact NO | right; exact (state_nodes _ _ _ _ _ _ _ _ _ _ _ VM VS RP ST NO)].
Qed.
Print Assumptions C77_shallow_water.
(** And if the scheme comes to the final time, so does the program: it fails only where the scheme cannot make a step (a cell without water, no time step, a flux that is not defined). *)
Theorem C77_runs : forall f32 SIZE cells nodes labels npart0 epart B order co cfl,
  sw_regular SIZE cells nodes labels npart0 epart B -> (0 < cfl)%R -> (0 <= co_Dx co + co_Dy co)%R -> complete_terms co ->
  exists st, setup f32 2 SIZE cells nodes labels npart0 epart = Ok st /\
    forall f W0 w0 fuel tfinal dt n t V, started_with B f -> values_of q5_zero SIZE (se_domains st) W0 w0 ->
    longest cells nodes (coefficients co) cfl W0 dt -> evolution cells nodes labels B order (coefficients co) cfl tfinal n 0 dt W0 t V -> (n <= fuel)%nat ->
    exists s, sw_program fuel f order co cfl tfinal SIZE st w0 = Ok (Some (t, s)) /\ held SIZE st V s /\ (n = O \/ depth_at_nodes cells nodes labels SIZE st V s).
Proof.
  intros f32 SIZE cells nodes labels npart0 epart B order co cfl RG HC HD TE. sw_setup f32 RG st E RP CS HX RU RV. exists st. split; [exact E|]. intros f W0 w0 fuel tfinal dt n t V HS HV LO EV LE.
  destruct (program_complete SIZE cells nodes labels npart0 epart st VM PL VS RP SC CS HX SP B FU FV RU RV order co cfl HC HD f fuel tfinal W0 w0 dt n t V HS (terms_on co TE) HV LO EV LE) as (s & EP & ST & NO).
  exists s. split; [exact EP|]. split; [exact (state_held _ _ _ _ _ _ _ _ _ _ VS ST)|]. destruct NO as [NO|NO]; [left; exact NO | right; exact (state_nodes _ _ _ _ _ _ _ _ _ _ _ VM VS RP ST NO)].
Qed.
Print Assumptions C77_runs.
(** The arrays of the ranks determine the state they hold. *)
Theorem C77_held_unique : forall f32 SIZE cells nodes labels npart0 epart B, sw_regular SIZE cells nodes labels npart0 epart B ->
  exists st, setup f32 2 SIZE cells nodes labels npart0 epart = Ok st /\ forall V V' s, held SIZE st V s -> held SIZE st V' s -> forall c, iscell cells c -> V c = V' c.
Proof. intros f32 SIZE cells nodes labels npart0 epart B RG. sw_setup f32 RG st E RP CS HX RU RV. exists st. split; [exact E|]. intros V V' s. exact (held_unique _ _ _ _ _ _ _ _ _ _ VS RP). Qed.
Print Assumptions C77_held_unique.
(** When the scheme makes a step: all cells are wet, and the fluxes through all facets are defined (what that takes: C44_critical_refuted). *)
Lemma friction_positive E dt w : (0 <= dt)%R -> (0 < q_h w)%R -> (1 <= friction_factor E dt w)%R.
Proof.
  intros Hd Hh. unfold friction_factor. pose proof g981_pos as G. assert (0 <= g981 * dt * fe_Mann E ^ 2 * sqrt ((q_hu w / q_h w) ^ 2 + (q_hv w / q_h w) ^ 2))%R.
  { apply Rmult_le_pos; [|apply sqrt_pos]. apply Rmult_le_pos; [apply Rmult_le_pos; lra | apply pow2_ge_0]. }
  assert (0 < / Rpower (q_h w) (4 / 3))%R by (apply Rinv_0_lt_compat; unfold Rpower; apply exp_pos). unfold Rdiv at 1. pose proof (Rmult_le_pos _ _ H (Rlt_le _ _ H0)). lra.
Qed.
Theorem C77_step : forall SIZE cells nodes labels npart0 epart B order E dt W,
  sw_regular SIZE cells nodes labels npart0 epart B -> (0 <= dt)%R ->
  ((exists V, sw_step cells nodes labels B order E dt W V) <->
   (forall c, iscell cells c -> (0 < q_h (W c))%R) /\
   forall S T P, slopes cells nodes labels order (fun c => slowed E dt (W c)) S T P -> forall c F, has_facet 2 cells c F -> flux cells nodes labels B order (fun c => slowed E dt (W c)) S T P c F <> None).
Proof.
  intros SIZE cells nodes labels npart0 epart B order E dt W RG Hd. split.
  - intros (V & WET & S & T & P & N & G & Phi & H & SL & _ & HP & _). split; [intros c Hc; exact (proj1 (WET c Hc))|]. intros S' T' P' SL' c F HF.
    rewrite (flux_same cells nodes labels B order (sr_mesh _ _ _ _ _ _ _ RG) _ _ (fun _ _ => eq_refl) S' T' P' S T P c F SL' SL (proj1 HF)).
    rewrite (HP c F (proj1 HF) (proj2 (facets_iff 2 cells nodes (vm_mesh _ _ _ _ (sr_mesh _ _ _ _ _ _ _ RG)) c F (proj1 HF)) HF)). discriminate.
  - intros (WET & FX). sw_setup (fun x : R => x) RG st ES RP CS HX RU RV.
    set (w0 := map (fun r => map (fun c => W (gcell (domain_of (se_domains st) r) c)) (range (zlen (dm_loctoglob (domain_of (se_domains st) r))))) (range SIZE)). pose proof (vs_size _ _ _ _ _ _ VS) as S1.
    assert (HV : values_of q5_zero SIZE (se_domains st) W w0).
    { split; [unfold w0; rewrite zlen_map, zlen_range; lia|]. intros r Hr. unfold w0. rewrite (nthZ_map _ 0) by (rewrite zlen_range; lia). rewrite nthZ_range by lia. pose proof (zlen_nonneg (dm_loctoglob (domain_of (se_domains st) r))). split; [rewrite zlen_map, zlen_range; lia|].
      intros c Hc. unfold iscell_of in Hc. rewrite (nthZ_map _ 0) by (rewrite zlen_range; lia). rewrite nthZ_range by lia. reflexivity. }
    destruct (start_ok SIZE cells nodes labels npart0 epart st VS RP CS B FU FV RU RV order (Some ((fl_ubc B, fl_uvs B), (fl_vbc B, fl_vvs B))) W w0 (or_introl eq_refl) HV) as (s & _ & ST).
    set (co := {| co_terms := ["convective"; "dissipation"; "source"; "coriolis"]%string; co_Dx := fe_Dx E; co_Dy := fe_Dy E; co_Mann := fe_Mann E; co_fc := fe_fc E |}).
    assert (EE : {| fe_Dx := co_Dx co; fe_Dy := co_Dy co; fe_Mann := co_Mann co; fe_fc := co_fc co |} = E) by (destruct E; reflexivity).
    pose proof (step_exists SIZE cells nodes labels npart0 epart st VM PL VS RP SC CS HX SP B FU FV RU RV order co dt W s eq_refl ST) as SE. rewrite EE in SE. apply SE; [|exact FX].
    intros c Hc. split; [exact (WET c Hc)|]. pose proof (friction_positive E dt (W c) Hd (WET c Hc)). lra.
Qed.
Print Assumptions C77_step.
Lemma rsum_bounds_one (g : Z -> R) l : (forall c, In c l -> (0 <= g c)%R) -> forall c, In c l -> (g c <= rsum (map g l))%R.
Proof.
  induction l as [|a l IH]; intros H c Hc; [destruct Hc|]. cbn [map]. rewrite rsum_cons. assert (0 <= rsum (map g l))%R by (apply rsum_map_nonneg; intros x Hx; apply H; right; exact Hx). pose proof (H a (or_introl eq_refl)).
  destruct Hc as [<-|Hc]; [lra|]. pose proof (IH (fun x Hx => H x (or_intror Hx)) c Hc). lra.
Qed.
Lemma wave_pos cells nodes labels : valid_mesh 2 cells nodes labels -> forall E, (0 <= fe_Dx E + fe_Dy E)%R -> forall w c, iscell cells c -> (0 < q_h w)%R -> (0 < wave_speed cells nodes E w c)%R.
Proof.
  intros VM E HD w c Hc HW. pose proof (volume_pos cells nodes labels VM c Hc) as PM.
  assert (TP : forall F, In F (facets (cell cells c)) -> (0 < (let n := outward cells nodes c F in Rabs (q_hu w / q_h w * px n + q_hv w / q_h w * py n) + sqrt (g981 * q_h w) * sqrt (vdot n n) + (fe_Dx E + fe_Dy E) * vdot n n / measure_of cells nodes c))%R).
  { intros F HF. cbv zeta. set (n := outward cells nodes c F). pose proof (outward_measures cells nodes labels c F VM (proj1 (facets_iff 2 cells nodes (vm_mesh _ _ _ _ VM) c F Hc) HF)) as (MM & _). fold n in MM.
    pose proof (Rabs_pos (q_hu w / q_h w * px n + q_hv w / q_h w * py n)). assert (0 < sqrt (g981 * q_h w) * sqrt (vdot n n))%R by (apply Rmult_lt_0_compat; [apply sqrt_lt_R0; unfold g981; lra | exact MM]).
    assert (0 <= (fe_Dx E + fe_Dy E) * vdot n n / measure_of cells nodes c)%R; [|lra]. apply Rmult_le_pos; [|left; apply Rinv_0_lt_compat; exact PM]. apply Rmult_le_pos; [exact HD|]. unfold vdot. pose proof (Rle_0_sqr (px n)). pose proof (Rle_0_sqr (py n)). pose proof (Rle_0_sqr (pz n)). unfold Rsqr in *. lra. }
  unfold wave_speed. destruct (row_facts 2 cells nodes (vm_mesh _ _ _ _ VM) c Hc) as (L & _). destruct (facets (cell cells c)) as [|F0 l] eqn:EF.
  - exfalso. apply (f_equal zlen) in EF. unfold facets in EF. rewrite zlen_map in EF. change (zlen (@nil (list Z))) with 0 in EF. lia.
  - cbn [map]. rewrite rsum_cons. pose proof (TP F0 (or_introl eq_refl)) as T0. assert (0 <= rsum (map (fun F => (let n := outward cells nodes c F in Rabs (q_hu w / q_h w * px n + q_hv w / q_h w * py n) + sqrt (g981 * q_h w) * sqrt (vdot n n) + (fe_Dx E + fe_Dy E) * vdot n n / measure_of cells nodes c)%R) l))%R.
    { apply rsum_map_nonneg. intros F HF. left. exact (TP F (or_intror HF)). } cbv zeta in *. lra.
Qed.
(** Every wet state allows a time step. *)
Theorem C77_time_step : forall SIZE cells nodes labels npart0 epart B E cfl W,
  sw_regular SIZE cells nodes labels npart0 epart B -> (0 < cfl)%R -> (0 <= fe_Dx E + fe_Dy E)%R -> (forall c, iscell cells c -> (0 < q_h (W c))%R) -> exists dt, (0 < dt)%R /\ longest cells nodes E cfl W dt.
Proof.
  intros SIZE cells nodes labels npart0 epart B E cfl W RG HC HD WET. sw_setup (fun x : R => x) RG st ES RP CS HX RU RV.
  set (w0 := map (fun r => map (fun c => W (gcell (domain_of (se_domains st) r) c)) (range (zlen (dm_loctoglob (domain_of (se_domains st) r))))) (range SIZE)). pose proof (vs_size _ _ _ _ _ _ VS) as S1.
  assert (HV : values_of q5_zero SIZE (se_domains st) W w0).
  { split; [unfold w0; rewrite zlen_map, zlen_range; lia|]. intros r Hr. unfold w0. rewrite (nthZ_map _ 0) by (rewrite zlen_range; lia). rewrite nthZ_range by lia. pose proof (zlen_nonneg (dm_loctoglob (domain_of (se_domains st) r))). split; [rewrite zlen_map, zlen_range; lia|].
    intros c Hc. unfold iscell_of in Hc. rewrite (nthZ_map _ 0) by (rewrite zlen_range; lia). rewrite nthZ_range by lia. reflexivity. }
  destruct (start_ok SIZE cells nodes labels npart0 epart st VS RP CS B FU FV RU RV 1 (Some ((fl_ubc B, fl_uvs B), (fl_vbc B, fl_vvs B))) W w0 (or_introl eq_refl) HV) as (s & _ & (FS & _)).
  set (co := {| co_terms := ["convective"; "dissipation"; "source"; "coriolis"]%string; co_Dx := fe_Dx E; co_Dy := fe_Dy E; co_Mann := fe_Mann E; co_fc := fe_fc E |}).
  assert (EE : {| fe_Dx := co_Dx co; fe_Dy := co_Dy co; fe_Mann := co_Mann co; fe_fc := co_fc co |} = E) by (destruct E; reflexivity).
  destruct (time_ok SIZE cells nodes labels npart0 epart st VM VS RP CS B co cfl HC HD W s FS WET) as (dt & _ & P & L). exists dt. split; [exact P|]. rewrite EE in L. exact L.
Qed.
Print Assumptions C77_time_step.
(** Still water of any depth over any bottom, at both orders: if the fluxes are defined, then with a small enough CFL number the program makes its first step, and the state is wet again. *)
Theorem C77_first_step : forall SIZE cells nodes labels npart0 epart B order co W,
  sw_regular SIZE cells nodes labels npart0 epart B -> (0 <= co_Dx co + co_Dy co)%R -> complete_terms co ->
  (forall c, iscell cells c -> (0 < q_h (W c))%R /\ q_hu (W c) = 0%R /\ q_hv (W c) = 0%R) ->
  (forall S T P, slopes cells nodes labels order W S T P -> forall c F, has_facet 2 cells c F -> flux cells nodes labels B order W S T P c F <> None) ->
  exists cfl0, (0 < cfl0)%R /\ forall cfl, (0 < cfl <= cfl0)%R -> exists dt V, (0 < dt)%R /\ longest cells nodes (coefficients co) cfl W dt /\ sw_step cells nodes labels B order (coefficients co) dt W V /\ (forall c, iscell cells c -> (0 < q_h (V c))%R) /\
    forall f32, exists st, setup f32 2 SIZE cells nodes labels npart0 epart = Ok st /\
    forall f w0, started_with B f -> values_of q5_zero SIZE (se_domains st) W w0 -> exists s, sw_program 1 f order co cfl dt SIZE st w0 = Ok (Some (dt, s)) /\ held SIZE st V s.
Proof.
  intros SIZE cells nodes labels npart0 epart B order co W RG HD TE STILL FX. pose proof RG as [VM PL SC SP VS FU FV _]. set (E := coefficients co).
  assert (WET : forall c, iscell cells c -> (0 < q_h (W c))%R) by (intros c Hc; exact (proj1 (STILL c Hc))).
  assert (SL : forall dt c, iscell cells c -> slowed E dt (W c) = W c).
  { intros dt c Hc. destruct (STILL c Hc) as (A & U & V). exact (proj1 (rest_slowed E _ dt (W c) (conj A (conj U (conj V eq_refl))))). }
  assert (FX' : forall dt S T P, slopes cells nodes labels order (fun c => slowed E dt (W c)) S T P -> forall c F, has_facet 2 cells c F -> flux cells nodes labels B order (fun c => slowed E dt (W c)) S T P c F <> None).
  { intros dt S T P HS c F HF. assert (HS' : slopes cells nodes labels order W S T P).
    { intros O2 d Hd. destruct (HS O2 d Hd) as (H1 & H2 & H3). assert (E1 : forall c, iscell cells c -> q_h (slowed E dt (W c)) = q_h (W c)) by (intros x _; reflexivity). exact (conj H1 (conj H2 H3)). }
    rewrite (flux_same cells nodes labels B order VM _ W (fun c Hc => SL dt c Hc) S T P S T P c F HS HS' (proj1 HF)). exact (FX S T P HS' c F HF). }
  destruct (proj2 (C77_step SIZE cells nodes labels npart0 epart B order E 0 W RG ltac:(lra)) (conj WET (FX' 0%R))) as (V0 & _ & S & T & P & N & G & Phi & H & HS & HT & HP & HH & _).
  assert (C0 : exists c0, iscell cells c0). { destruct (Z.eq_dec SIZE 1) as [E1|N1]; [destruct (vs_alone _ _ _ _ _ _ VS E1) as (L & _); exists 0; unfold iscell; lia|]. pose proof (vs_size _ _ _ _ _ _ VS). destruct (vs_several _ _ _ _ _ _ VS ltac:(lia)) as (_ & _ & HR). destruct (HR 0 ltac:(lia)) as (a & _ & _ & (Ha & _) & _). exists a; exact Ha. }
  destruct C0 as (c0 & Hc0).
  set (g := fun c => (Rabs (gain cells Phi q_h c / measure_of cells nodes c) / q_h (W c))%R). set (M := (1 + rsum (map g (range (zlen cells))))%R).
  assert (G0 : forall c, In c (range (zlen cells)) -> (0 <= g c)%R). { intros c Hc. apply in_range in Hc. unfold g. apply Rmult_le_pos; [apply Rabs_pos | left; apply Rinv_0_lt_compat; exact (WET c Hc)]. }
  assert (M1 : (1 <= M)%R) by (unfold M; pose proof (rsum_map_nonneg g _ G0); lra).
  assert (GM : forall c, iscell cells c -> (g c <= M)%R). { intros c Hc. unfold M. pose proof (rsum_bounds_one g _ G0 c (proj2 (in_range _ _) Hc)). lra. }
  set (ws := wave_speed cells nodes E (W c0) c0). assert (PW : (0 < ws)%R) by (apply (wave_pos cells nodes labels VM E HD (W c0) c0 Hc0); exact (WET c0 Hc0)).
  pose proof (volume_pos cells nodes labels VM c0 Hc0) as PM.
  exists (ws / (2 * M * measure_of cells nodes c0))%R. assert (MD : (0 < 2 * M * measure_of cells nodes c0)%R) by (apply Rmult_lt_0_compat; lra).
  split; [apply Rmult_lt_0_compat; [exact PW | apply Rinv_0_lt_compat; exact MD]|]. intros cfl (HC & HC0).
  destruct (C77_time_step SIZE cells nodes labels npart0 epart B E cfl W RG HC HD WET) as (dt & DP & LG).
  destruct (proj2 (C77_step SIZE cells nodes labels npart0 epart B order E dt W RG ltac:(lra)) (conj WET (FX' dt))) as (V & SV). exists dt, V. split; [exact DP|]. split; [exact LG|]. split; [exact SV|].
  assert (DT : (dt * M <= 1 / 2)%R).
  { destruct LG as (_ & (_ & A) & _). specialize (A c0 Hc0). fold ws in A. assert (B1 : (dt * ws <= ws / (2 * M))%R).
    { eapply Rle_trans; [exact A|]. apply (Rmult_le_compat_r _ _ _ (Rlt_le _ _ PM)) in HC0. eapply Rle_trans; [exact HC0|]. right. field. lra. }
    assert (B2 : (dt <= 1 / (2 * M))%R) by (apply (Rmult_le_reg_r ws); [exact PW|]; eapply Rle_trans; [exact B1|]; right; field; lra).
    apply (Rmult_le_compat_r M) in B2; [|lra]. eapply Rle_trans; [exact B2|]. right. field. lra. }
  assert (VW : forall c, iscell cells c -> (0 < q_h (V c))%R).
  { intros c Hc. destruct SV as (_ & S' & T' & P' & N' & G' & Phi' & H' & HS' & _ & HP' & _ & EV). rewrite (EV c Hc). unfold stepped. cbn [q_h slowed].
    assert (EG : gain cells Phi' q_h c = gain cells Phi q_h c).
    { unfold gain. f_equal. f_equal. apply map_ext_in. intros F HF. pose proof (HP c F Hc HF) as A. pose proof (HP' c F Hc HF) as A'.
      rewrite (flux_same cells nodes labels B order VM (fun c => slowed E dt (W c)) (fun c => slowed E 0 (W c)) (fun c Hc => eq_trans (SL dt c Hc) (eq_sym (SL 0%R c Hc))) S' T' P' S T P c F HS' HS Hc) in A'. rewrite A in A'. injection A' as ->. reflexivity. }
    rewrite EG. pose proof (GM c Hc) as X. unfold g in X. pose proof (WET c Hc) as HW. set (x := (gain cells Phi q_h c / measure_of cells nodes c)%R) in *.
    assert (X' : (Rabs x <= M * q_h (W c))%R). { apply (Rmult_le_compat_r (q_h (W c))) in X; [|lra]. replace (Rabs x / q_h (W c) * q_h (W c))%R with (Rabs x) in X by (field; lra). exact X. }
    assert (X2 : (dt * Rabs x <= dt * (M * q_h (W c)))%R) by (apply Rmult_le_compat_l; lra). assert (X3 : (dt * M * q_h (W c) <= 1 / 2 * q_h (W c))%R) by (apply Rmult_le_compat_r; lra).
    pose proof (Rle_abs (- x)) as X4. rewrite Rabs_Ropp in X4. assert (X5 : (dt * - x <= dt * Rabs x)%R) by (apply Rmult_le_compat_l; lra). lra. }
  split; [exact VW|]. intros f32. destruct (C77_time_step SIZE cells nodes labels npart0 epart B E cfl V RG HC HD VW) as (dt1 & _ & LG1).
  destruct (C77_runs f32 SIZE cells nodes labels npart0 epart B order co cfl RG HC HD TE) as (st & ES & R). exists st. split; [exact ES|]. intros f w0 HF HV.
  destruct (R f W w0 1%nat dt dt 1%nat (0 + dt)%R V HF HV LG) as (s & EP & HHs & _); [|lia|].
  - apply (ev_step _ _ _ _ _ _ _ _ O 0%R dt W V dt1); [exact DP | exact SV | exact LG1|]. apply ev_done; [lra | reflexivity].
  - exists s. rewrite Rplus_0_l in EP. split; [exact EP | exact HHs].
Qed.
Print Assumptions C77_first_step.
(** Without one of the terms convective, dissipation, source and coriolis the program stops with an AttributeError as soon as it makes a step. *)
Theorem C77_terms : forall f32 SIZE cells nodes labels npart0 epart B order co cfl,
  sw_regular SIZE cells nodes labels npart0 epart B -> (0 < cfl)%R -> (0 <= co_Dx co + co_Dy co)%R -> ~ complete_terms co ->
  exists st, setup f32 2 SIZE cells nodes labels npart0 epart = Ok st /\
    forall f W0 w0 fuel tfinal, started_with B f -> values_of q5_zero SIZE (se_domains st) W0 w0 -> (forall c, iscell cells c -> (0 < q_h (W0 c))%R) -> (0 < tfinal)%R ->
    sw_program (Datatypes.S fuel) f order co cfl tfinal SIZE st w0 = Err AttributeError.
Proof.
  intros f32 SIZE cells nodes labels npart0 epart B order co cfl RG HC HD TE. sw_setup f32 RG st E RP CS HX RU RV. exists st. split; [exact E|]. intros f W0 w0 fuel tfinal HS HV WET TF.
  destruct (start_ok SIZE cells nodes labels npart0 epart st VS RP CS B FU FV RU RV order f W0 w0 HS HV) as (s & ES & ST). unfold sw_program. rewrite ES. cbn [bind].
  destruct (time_ok SIZE cells nodes labels npart0 epart st VM VS RP CS B co cfl HC HD W0 s (proj1 ST) WET) as (dt & ET & _). rewrite ET. cbn [bind sw_loop]. destruct (Rlt_dec 0 tfinal) as [_|N]; [|contradiction].
  unfold sw_turn. destruct (update_ranks SIZE cells nodes labels npart0 epart st VS RP CS HX B FU FV RU RV order (match f with Some _ => false | None => true end) W0 s ST) as (s1 & E1 & _). rewrite E1. cbn [bind]. unfold sw_update_solution.
  destruct (forallb _ _) eqn:EF; [|reflexivity]. exfalso. apply TE. intros t Ht. rewrite forallb_forall in EF. specialize (EF t Ht). unfold has_term in EF. apply existsb_exists in EF as (x & Hx & EX). apply String.eqb_eq in EX. subst x. exact Hx.
Qed.
Print Assumptions C77_terms.
(** The result of the scheme is determined by the mesh, the coefficients and the initial state. *)
Theorem C77_deterministic : forall cells nodes labels B order E cfl tfinal dt dt' W W' n n' t t' V V',
  valid_mesh 2 cells nodes labels -> (forall c, iscell cells c -> W c = W' c) -> longest cells nodes E cfl W dt -> longest cells nodes E cfl W' dt' ->
  evolution cells nodes labels B order E cfl tfinal n 0 dt W t V -> evolution cells nodes labels B order E cfl tfinal n' 0 dt' W' t' V' ->
  dt = dt' /\ n = n' /\ t = t' /\ forall c, iscell cells c -> V c = V' c.
Proof.
  intros cells nodes labels B order E cfl tfinal dt dt' W W' n n' t t' V V' VM EW L L' EV EV'. pose proof (longest_unique cells nodes E cfl W W' dt dt' EW L L') as <-. split; [reflexivity|].
  exact (evolution_unique cells nodes labels B order E VM cfl tfinal n 0%R dt W W' t V n' t' V' EW EV EV').
Qed.
Print Assumptions C77_deterministic.

(** C78.  The result does not depend on the number of ranks or on the distribution of the cells. *)
Lemma held_ext SIZE cells nodes labels epart st V V' s : represents 2 SIZE cells nodes labels epart (se_domains st) -> (forall c, iscell cells c -> V c = V' c) -> held SIZE st V s -> held SIZE st V' s.
Proof.
  intros RP EV. assert (HE : forall k l, holding SIZE st (fun c => k (V c) : R) l -> holding SIZE st (fun c => k (V' c)) l).
  { intros k l (ws & E1 & L & H). exists ws. split; [exact E1|]. split; [exact L|]. intros r Hr. destruct (H r Hr) as (LR & HR). split; [exact LR|]. intros c Hc. rewrite (HR c Hc). rewrite (EV _ (proj1 (gcell_owned 2 cells nodes labels epart r _ (rp_part _ _ _ _ _ _ _ RP r Hr) c Hc))). reflexivity. }
  intros (A1 & A2 & A3 & A4 & A5). split; [exact (HE q_h _ A1)|]. split; [exact (HE q_hu _ A2)|]. split; [exact (HE q_hv _ A3)|]. split; [exact (HE q_hc _ A4) | exact (HE q_Z _ A5)].
Qed.
Theorem C78_same_result : forall f32 cells nodes labels B order co cfl SIZE npart0 epart SIZE' npart0' epart',
  sw_regular SIZE cells nodes labels npart0 epart B -> sw_regular SIZE' cells nodes labels npart0' epart' B -> (0 < cfl)%R -> (0 <= co_Dx co + co_Dy co)%R -> complete_terms co ->
  exists st st', setup f32 2 SIZE cells nodes labels npart0 epart = Ok st /\ setup f32 2 SIZE' cells nodes labels npart0' epart' = Ok st' /\
    forall f W0 w0 w0' fuel tfinal t s, started_with B f -> values_of q5_zero SIZE (se_domains st) W0 w0 -> values_of q5_zero SIZE' (se_domains st') W0 w0' ->
    sw_program fuel f order co cfl tfinal SIZE st w0 = Ok (Some (t, s)) ->
    exists V s', held SIZE st V s /\ sw_program fuel f order co cfl tfinal SIZE' st' w0' = Ok (Some (t, s')) /\ held SIZE' st' V s'.
Proof.
  intros f32 cells nodes labels B order co cfl SIZE npart0 epart SIZE' npart0' epart' RG RG' HC HD TE.
  destruct (C77_shallow_water f32 _ _ _ _ _ _ B order co cfl RG HC HD) as (st & E & H). destruct (C77_runs f32 _ _ _ _ _ _ B order co cfl RG' HC HD TE) as (st' & E' & H'). exists st, st'. split; [exact E|]. split; [exact E'|].
  intros f W0 w0 w0' fuel tfinal t s HS HV HV' EP. destruct (H f W0 w0 fuel tfinal t s HS HV EP) as (dt & n & V & LE & LO & EV & HH & _). destruct (H' f W0 w0' fuel tfinal dt n t V HS HV' LO EV LE) as (s' & EP' & HH' & _). exists V, s'. split; [exact HH|]. split; assumption.
Qed.
Print Assumptions C78_same_result.

(** C79.  What a step does to the water and the tracer in the mesh: only what crosses the boundary counts, fluxes between cells cancel exactly, and neither friction nor bottom matter. *)
Theorem C79_balance : forall cells nodes labels B order E dt W V,
  valid_mesh 2 cells nodes labels -> sw_step cells nodes labels B order E dt W V ->
  exists S T P N G Phi, let W1 := fun c => slowed E dt (W c) in
    slopes cells nodes labels order W1 S T P /\ tracer_slopes cells nodes labels W1 N G /\
    (forall c F, iscell cells c -> In F (facets (cell cells c)) -> flux cells nodes labels B order W1 S T P c F = Some (Phi c F)) /\
    amount cells nodes q_h V = (amount cells nodes q_h W - dt * rsum (map (fun p => q_h (Phi (fst p) (snd p))) (boundary_facets cells)))%R /\
    amount cells nodes q_hc V = (amount cells nodes q_hc W - dt * rsum (map (fun p => q_hc (Phi (fst p) (snd p)) + diffused cells nodes (P3 (fe_Dx E) (fe_Dy E) 0) (G (fst p) (snd p)) (fst p) (snd p)) (boundary_facets cells)))%R.
Proof. intros cells nodes labels B order E dt W V VM ST. exact (step_balance cells nodes labels B order E VM dt W V ST). Qed.
Print Assumptions C79_balance.
(** Between walls nothing is lost: at first order the program ends with the water it started with, and with the tracer if it spreads the same in all directions. *)
Theorem C79_closed_basin : forall f32 SIZE cells nodes labels npart0 epart B order co cfl,
  sw_regular SIZE cells nodes labels npart0 epart B -> (0 < cfl)%R -> (0 <= co_Dx co + co_Dy co)%R -> all_walls B -> order <> 2 ->
  exists st, setup f32 2 SIZE cells nodes labels npart0 epart = Ok st /\
    forall f W0 w0 fuel tfinal t s, started_with B f -> values_of q5_zero SIZE (se_domains st) W0 w0 -> sw_program fuel f order co cfl tfinal SIZE st w0 = Ok (Some (t, s)) ->
    exists V, held SIZE st V s /\ amount cells nodes q_h V = amount cells nodes q_h W0 /\ (co_Dx co = co_Dy co -> amount cells nodes q_hc V = amount cells nodes q_hc W0).
Proof.
  intros f32 SIZE cells nodes labels npart0 epart B order co cfl RG HC HD WALL FO. destruct (C77_shallow_water f32 _ _ _ _ _ _ B order co cfl RG HC HD) as (st & E & H). exists st. split; [exact E|].
  intros f W0 w0 fuel tfinal t s HS HV EP. destruct (H f W0 w0 fuel tfinal t s HS HV EP) as (dt & n & V & _ & _ & EV & HH & _). exists V. split; [exact HH|].
  exact (closed cells nodes labels B order (coefficients co) (sr_mesh _ _ _ _ _ _ _ RG) (sr_u _ _ _ _ _ _ _ RG) (sr_v _ _ _ _ _ _ _ RG) WALL FO cfl tfinal n _ _ _ _ _ EV).
Qed.
Print Assumptions C79_closed_basin.
(** A lake at rest over any bottom stays as it is, whatever the sides are except inflow: at first order the program comes to the final time and holds the same depth, no flow, the same bottom;
    and the same tracer if it does not spread. *)
Theorem C79_lake : forall f32 SIZE cells nodes labels npart0 epart B order co cfl H0,
  sw_regular SIZE cells nodes labels npart0 epart B -> (0 < cfl)%R -> (0 <= co_Dx co + co_Dy co)%R -> complete_terms co -> order <> 2 ->
  (forall l t, In (l, t) (fl_ubc B) \/ In (l, t) (fl_vbc B) -> t <> BDirichlet) ->
  exists st, setup f32 2 SIZE cells nodes labels npart0 epart = Ok st /\
    forall f W0 w0 tfinal, started_with B f -> values_of q5_zero SIZE (se_domains st) W0 w0 -> lake cells H0 W0 ->
    exists n t, (tfinal <= t)%R /\ forall fuel, (n <= fuel)%nat -> exists s V, sw_program fuel f order co cfl tfinal SIZE st w0 = Ok (Some (t, s)) /\ held SIZE st V s /\
      forall c, iscell cells c -> q_h (V c) = q_h (W0 c) /\ q_hu (V c) = 0%R /\ q_hv (V c) = 0%R /\ q_Z (V c) = q_Z (W0 c) /\ (co_Dx co = 0%R -> co_Dy co = 0%R -> q_hc (V c) = q_hc (W0 c)).
Proof.
  intros f32 SIZE cells nodes labels npart0 epart B order co cfl H0 RG HC HD TE FO ND. sw_setup f32 RG st E RP CS HX RU RV. exists st. split; [exact E|]. intros f W0 w0 tfinal HS HV L.
  destruct (lake_program SIZE cells nodes labels npart0 epart st VM PL VS RP SC CS HX SP B FU FV RU RV order co cfl HC HD (fun l t H => ND l t (or_introl H)) (fun l t H => ND l t (or_intror H)) FO H0 f tfinal W0 w0 HS (terms_on co TE) HV L) as (n & t & V & SL & TF & R).
  exists n, t. split; [exact TF|]. intros fuel Hf. destruct (R fuel Hf) as (s & EP & ST). exists s, V. split; [exact EP|]. split; [exact (state_held _ _ _ _ _ _ _ _ _ _ VS ST) | exact SL].
Qed.
Print Assumptions C79_lake.
(** A uniform flow over a flat bottom, without friction and Coriolis force and with sides that agree with it, stays as it is, at both orders; its speed must not be critical across any facet. *)
Theorem C79_uniform_flow : forall f32 SIZE cells nodes labels npart0 epart B order co cfl w,
  sw_regular SIZE cells nodes labels npart0 epart B -> (0 < cfl)%R -> (0 <= co_Dx co + co_Dy co)%R -> complete_terms co -> co_Mann co = 0%R -> co_fc co = 0%R -> (0 < q_h w)%R ->
  (forall c F, only_cell 2 cells c F -> flow_value nodes labels (fl_ubc B) (fl_uvs B) F (q_hu w) = q_hu w /\ flow_value nodes labels (fl_vbc B) (fl_vvs B) F (q_hv w) = q_hv w) ->
  (forall c F, has_facet 2 cells c F -> let n := outward cells nodes c F in Rabs ((q_hu w / q_h w * px n + q_hv w / q_h w * py n) / sqrt (vdot n n)) <> sqrt (g981 * q_h w)) ->
  exists st, setup f32 2 SIZE cells nodes labels npart0 epart = Ok st /\
    forall f w0 tfinal, started_with B f -> values_of q5_zero SIZE (se_domains st) (fun _ => w) w0 ->
    exists n t, (tfinal <= t)%R /\ forall fuel, (n <= fuel)%nat -> exists s, sw_program fuel f order co cfl tfinal SIZE st w0 = Ok (Some (t, s)) /\ held SIZE st (fun _ => w) s.
Proof.
  intros f32 SIZE cells nodes labels npart0 epart B order co cfl w RG HC HD TE NOF NOC WET SIDES SUB. sw_setup f32 RG st E RP CS HX RU RV. exists st. split; [exact E|]. intros f w0 tfinal HS HV.
  assert (CR : forall c F, has_facet 2 cells c F -> ~ Spec_sw.critical g981 w w (outward cells nodes c F) (sqrt (vdot (outward cells nodes c F) (outward cells nodes c F)))).
  { intros c F HF C. apply (SUB c F HF). unfold Spec_sw.critical, Spec_sw.roe_speed, Spec_sw.celerity in C. replace ((q_h w + q_h w) / 2)%R with (q_h w) in C by field. rewrite <- C.
    assert (RM : forall a, Spec_sw.roe_mean w w a a = (a / q_h w)%R). { intros a. unfold Spec_sw.roe_mean. pose proof (sqrt_lt_R0 _ WET). field. split; lra. } rewrite !RM. reflexivity. }
  destruct (uniform_program SIZE cells nodes labels npart0 epart st VM PL VS RP SC CS HX SP B FU FV RU RV order co cfl HC HD w f tfinal (fun _ => w) w0 WET NOF NOC SIDES CR HS (terms_on co TE) HV (fun _ _ => eq_refl)) as (n & t & TF & R).
  exists n, t. split; [exact TF|]. intros fuel Hf. destruct (R fuel Hf) as (s & V & EP & ST & EV). exists s. split; [exact EP|]. exact (held_ext SIZE cells nodes labels epart st V (fun _ => w) s RP EV (state_held _ _ _ _ _ _ _ _ _ _ VS ST)).
Qed.
Print Assumptions C79_uniform_flow.
