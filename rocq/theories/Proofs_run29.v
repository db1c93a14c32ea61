(** * Proofs_run29: steps exist where the fluxes do; a uniform flow stays uniform. *)
From Coq Require Import String Reals Lra Psatz Permutation Sorted.
From Verif Require Import Py PyLemmas Model_part Spec_part Model_label Model_conn Spec_conn Proofs_conn1 Proofs_conn2 Model_geom Spec_geom Proofs_geom1 Proofs_geom2 Proofs_geom3
  Model_halo Spec_halo Model_interp Spec_interp Spec_lsq Proofs_lsq Model_fvm Spec_fvm Proofs_fvm1 Proofs_fvm2 Model_bc Spec_bc Spec_bc3 Proofs_label Proofs_bc Proofs_bc2 Proofs_bc3 Model_domain Spec_domain
  Model_comm Model_parallel Spec_parallel Proofs_parallel1 Model_run Spec_run Proofs_run1 Proofs_run2 Proofs_run3 Proofs_run4 Proofs_run5 Proofs_run6 Spec_run2 Model_run2 Proofs_run7 Proofs_run8 Proofs_run9 Proofs_run10 Proofs_run11 Proofs_run12 Proofs_run13 Proofs_run14 Proofs_run15.
From Verif Require Import Model_sw Proofs_sw5 Proofs_sw6 Proofs_sw7 Model_run3 Spec_run4 Proofs_run17 Proofs_run18 Proofs_run19 Proofs_run20 Proofs_run21 Proofs_run22 Proofs_run23 Proofs_run24 Proofs_run26 Proofs_run27 Proofs_run28.
From Verif Require Spec_sw Properties_sw Proofs_sw8 Properties_parallel.
Open Scope Z_scope.
(** *** Constant fields with free sides *)
Section Const.
Context (cells : list (list Z)) (nodes : list pt) (labels : list Z).
Hypothesis VM : valid_mesh 2 cells nodes labels.
Notation WF := (vm_mesh _ _ _ _ VM).
Context (X : Z -> R) (k : R).
Hypothesis HX : forall c, iscell cells c -> X c = k.
Lemma const_mirrors g q : In q (map (mirrored 2 cells nodes labels free [] X) (boundary_at cells g)) -> snd q = k.
Proof. intros Hq. apply in_map_iff in Hq as ((d, F) & <- & Hq). apply (in_boundary_at 2 cells nodes labels VM) in Hq as (Hq & _). unfold mirrored. cbn [fst snd]. rewrite (HX d (proj1 (proj1 Hq))). apply free_value. Qed.
Lemma const_slope c s : iscell cells c -> cell_slope 2 cells nodes labels free [] X c s -> s = vzero.
Proof.
  intros Hc B. unfold cell_slope in B. rewrite (HX c Hc) in B. refine (slope_constant 2 _ _ _ _ _ B). intros q Hq. unfold around_cell in Hq. apply in_app_iff in Hq as [Hq|Hq].
  - apply in_map_iff in Hq as (e & <- & He). apply in_neighbours in He as (He & _). apply HX, He.
  - apply in_flat_map in Hq as (g & _ & Hq). exact (const_mirrors g q Hq).
Qed.
Lemma const_node g v : nodal_value 2 cells nodes labels free [] X g v -> v = k.
Proof.
  intros (c0 & s & B & ->). assert (HQ : forall q, In q (around_node 2 cells nodes labels free [] X g) -> snd q = k).
  { intros q Hq. unfold around_node in Hq. apply in_app_iff in Hq as [Hq|Hq]; [|exact (const_mirrors g q Hq)]. apply in_map_iff in Hq as (e & <- & He). apply in_touching in He as (He & _). apply HX, He. }
  destruct (fit_constant 2 k _ _ _ HQ B) as (-> & ->). unfold affine. rewrite vdot_zero_l. ring.
Qed.
Lemma const_facet N c F s : iscell cells c -> In F (facets (cell cells c)) -> (forall g, In g (cell cells c) -> N g = k) -> facet_slope 2 cells nodes labels free [] X N c F s -> s = vzero.
Proof.
  intros Hc HF NK FS. pose proof (proj1 (facets_iff 2 cells nodes WF c F Hc) HF) as HF'. apply (facet_slope_unique 2 cells nodes labels free [] VM X N c F); [exact HF' | exact FS |]. split; [intros _; reflexivity|]. split.
  - intros a b Ha Hb. rewrite vdot_zero_l, !NK by (apply HF'; assumption). ring.
  - rewrite vdot_zero_l, (HX c Hc). unfold value_beyond. destruct (beside cells c F) as [e|] eqn:EB; [|rewrite free_value, (HX c Hc); ring]. rewrite (HX e (beside_cell cells c F e EB)). ring.
Qed.
End Const.
Lemma no_friction E w dt : fe_Mann E = 0%R -> slowed E dt w = w /\ friction_factor E dt w = 1%R.
Proof.
  intros NOF. assert (FF : friction_factor E dt w = 1%R). { unfold friction_factor. rewrite NOF. unfold Rdiv. ring. }
  split; [|exact FF]. unfold slowed. rewrite FF. destruct w. cbn. f_equal; field.
Qed.
Section Uniform.
Context (cells : list (list Z)) (nodes : list pt) (labels : list Z) (B : flow) (order : Z) (E : friction_etc).
Hypothesis VM : valid_mesh 2 cells nodes labels.
Notation WF := (vm_mesh _ _ _ _ VM).
Notation PR := (vm_proper _ _ _ _ VM).
Notation facets_of c := (facets (cell cells c)).
Notation out c F := (outward cells nodes c F).
Notation length n := (sqrt (vdot n n)).
Notation W1 dt W := (fun c : Z => slowed E dt (W c)).
Context (w : q5).
Hypothesis WET : (0 < q_h w)%R.
Hypothesis NOF : fe_Mann E = 0%R.
Hypothesis NOC : fe_fc E = 0%R.
Hypothesis SIDES : forall c F, only_cell 2 cells c F -> flow_value nodes labels (fl_ubc B) (fl_uvs B) F (q_hu w) = q_hu w /\ flow_value nodes labels (fl_vbc B) (fl_vvs B) F (q_hv w) = q_hv w.
Hypothesis SUB : forall c F, has_facet 2 cells c F -> ~ Spec_sw.critical g981 w w (out c F) (length (out c F)).
Notation uniform W := (forall c, iscell cells c -> W c = w).
Lemma uniform_outside W c F : uniform W -> has_facet 2 cells c F -> outside cells nodes labels B W c F = w.
Proof.
  intros U HF. unfold outside. destruct (beside cells c F) as [d|] eqn:EB; [exact (U d (beside_cell cells c F d EB))|]. rewrite (U c (proj1 HF)). destruct (SIDES c F (proj1 (beside_none 2 cells nodes WF PR c F HF) EB)) as (S1 & S2). rewrite S1, S2. destruct w. reflexivity.
Qed.
Lemma uniform_at W S T P c F : uniform W -> slopes cells nodes labels order W S T P -> iscell cells c -> at_facet cells nodes order W S T P c F = w.
Proof.
  intros U SL Hc. unfold at_facet. destruct (Z.eqb_spec order 2) as [EO|_]; [|exact (U c Hc)]. destruct (SL EO c Hc) as (A1 & A2 & _).
  apply (const_slope cells nodes labels VM (fun c => q_h (W c)) (q_h w) (fun c Hc => f_equal q_h (U c Hc)) c _ Hc) in A1. apply (const_slope cells nodes labels VM (fun c => q_hc (W c)) (q_hc w) (fun c Hc => f_equal q_hc (U c Hc)) c _ Hc) in A2.
  unfold reconstructed, rise. rewrite A1, A2, vdot_zero_l, (U c Hc). destruct w. cbn. f_equal; ring.
Qed.
Lemma uniform_flux W S T P c F : uniform W -> slopes cells nodes labels order W S T P -> has_facet 2 cells c F -> flux cells nodes labels B order W S T P c F = Some (Spec_sw.physical_flux g981 w (out c F)).
Proof.
  intros U SL HF. unfold flux. rewrite (uniform_at W S T P c F U SL (proj1 HF)).
  replace (match beside cells c F with Some d => at_facet cells nodes order W S T P d F | None => outside cells nodes labels B W c F end) with w.
  - exact (Properties_sw.C44_consistency g981 _ _ w g981_pos (outward_measures cells nodes labels c F VM HF) WET (SUB c F HF)).
  - destruct (beside cells c F) as [d|] eqn:EB; [rewrite (uniform_at W S T P d F U SL (beside_cell cells c F d EB)) | rewrite (uniform_outside W c F U HF)]; reflexivity.
Qed.
Lemma normals_sum c : iscell cells c -> rsum (map (fun F => px (out c F)) (facets_of c)) = 0%R /\ rsum (map (fun F => py (out c F)) (facets_of c)) = 0%R.
Proof.
  intros Hc. destruct (arranged_exists cells nodes labels VM c Hc) as (a & b & d & F0 & F1 & F2 & AR). destruct (normals_ok cells nodes labels VM c a b d F0 F1 F2 Hc AR) as (N0 & N1 & N2).
  split; rewrite (sum_facets cells nodes c a b d F0 F1 F2 AR), N0, N1, N2; unfold edge; cbn [px py]; ring.
Qed.
Lemma uniform_force W c H k : uniform W -> iscell cells c -> part_depths cells nodes labels B W c H -> k = px \/ k = py -> bottom_force cells nodes labels B W c H k = 0%R.
Proof.
  intros U Hc PD Hk. destruct (arranged_exists cells nodes labels VM c Hc) as (a & b & d & F0 & F1 & F2 & AR).
  assert (HF : forall F, In F [F0; F1; F2] -> outside cells nodes labels B W c F = w) by (intros F HI; apply (uniform_outside W c F U), (has cells nodes labels VM c F Hc), (Permutation_in _ (Permutation_sym (ar_facets _ _ _ _ _ _ _ _ _ AR))); exact HI).
  pose proof (HF F0 (or_introl eq_refl)) as A0. pose proof (HF F1 (or_intror (or_introl eq_refl))) as A1. pose proof (HF F2 (or_intror (or_intror (or_introl eq_refl)))) as A2.
  pose proof (source_force cells nodes labels VM B W c a b d F0 F1 F2 Hc AR ltac:(rewrite A0; exact WET) ltac:(rewrite A1; exact WET) ltac:(rewrite A2; exact WET) H (W c) _ _ _ _ _ _ _ _ PD eq_refl eq_refl eq_refl eq_refl eq_refl eq_refl eq_refl (conj eq_refl eq_refl) (conj eq_refl eq_refl) (conj eq_refl eq_refl)) as SF.
  assert (TU : (0 < turn (at_node nodes a) (at_node nodes b) (at_node nodes d))%R) by exact (ar_turn _ _ _ _ _ _ _ _ _ AR). rewrite A0, A1, A2, (U c Hc) in SF.
  rewrite source_rest in SF; [|exact WET|exact WET|exact WET| lra | lra | lra | unfold edge; cbn [px]; ring | unfold edge; cbn [py]; ring | unfold edge; cbn [px py]; unfold turn in TU; lra].
  assert (SO : forall p q : R * R, Some p = Some q -> p = q) by congruence. apply SO in SF. pose proof (f_equal fst SF) as SX. pose proof (f_equal snd SF) as SY. cbn [fst snd] in SX, SY. destruct Hk as [-> | ->]; [rewrite <- SX | rewrite <- SY]; unfold edge; cbn [px py]; ring.
Qed.
Lemma uniform_step dt W V : uniform W -> sw_step cells nodes labels B order E dt W V -> uniform V.
Proof.
  intros U (_ & S & T & P & N & G & Phi & H & SL & (TN & TG) & HP & HH & HV) c Hc. rewrite (HV c Hc). assert (U1 : uniform (W1 dt W)) by (intros d Hd; cbv beta; rewrite (U d Hd); exact (proj1 (no_friction E w dt NOF))).
  assert (EP : forall F, In F (facets_of c) -> Phi c F = Spec_sw.physical_flux g981 w (out c F)).
  { intros F HF. pose proof (HP c F Hc HF) as Q. rewrite (uniform_flux (W1 dt W) S T P c F U1 SL (has cells nodes labels VM c F Hc HF)) in Q. congruence. }
  destruct (normals_sum c Hc) as (NX & NY).
  assert (LIN : forall a b, rsum (map (fun F => a * px (out c F) + b * py (out c F))%R (facets_of c)) = 0%R) by (intros a b; rewrite rsum_map_add, !rsum_map_scal, NX, NY; ring).
  assert (GA : forall k a b, (forall F, k (Spec_sw.physical_flux g981 w (out c F)) = (a * px (out c F) + b * py (out c F))%R) -> gain cells Phi k c = 0%R).
  { intros k a b Hk. unfold gain. rewrite (rsum_map_ext _ (fun F => a * px (out c F) + b * py (out c F))%R) by (intros F HF; rewrite (EP F HF); apply Hk). rewrite LIN. ring. }
  assert (DZ : rsum (map (fun F => diffused cells nodes (P3 (fe_Dx E) (fe_Dy E) 0) (G c F) c F) (facets_of c)) = 0%R).
  { apply rsum_map_zero. intros F HF. assert (GZ : G c F = vzero). { refine (const_facet cells nodes labels VM _ (q_hc w) (fun c Hc => f_equal q_hc (U1 c Hc)) N c F _ Hc HF _ (TG c F Hc HF)). intros g Hg. exact (const_node cells nodes labels VM _ (q_hc w) (fun c Hc => f_equal q_hc (U1 c Hc)) g _ (TN c g Hc Hg)). }
    rewrite GZ. unfold diffused, vdot, vzero. cbn [px py pz]. ring. }
  unfold stepped. cbv zeta. rewrite DZ, NOC, (uniform_force _ c (H c) px U1 Hc (HH c Hc) (or_introl eq_refl)), (uniform_force _ c (H c) py U1 Hc (HH c Hc) (or_intror eq_refl)).
  rewrite (GA q_h (q_hu w) (q_hv w)) by (intros F; unfold Spec_sw.physical_flux, Spec_sw.discharge; cbn [q_h]; ring).
  rewrite (GA q_hu (q_hu w * (q_hu w / q_h w) + g981 * q_h w ^ 2 / 2)%R (q_hv w * (q_hu w / q_h w))%R) by (intros F; unfold Spec_sw.physical_flux, Spec_sw.discharge; cbn [q_hu]; ring).
  rewrite (GA q_hv (q_hu w * (q_hv w / q_h w))%R (q_hv w * (q_hv w / q_h w) + g981 * q_h w ^ 2 / 2)%R) by (intros F; unfold Spec_sw.physical_flux, Spec_sw.discharge; cbn [q_hv]; ring).
  rewrite (GA q_hc (q_hu w * (q_hc w / q_h w))%R (q_hv w * (q_hc w / q_h w))%R) by (intros F; unfold Spec_sw.physical_flux, Spec_sw.discharge; cbn [q_hc]; ring).
  rewrite (U c Hc), (proj1 (no_friction E w dt NOF)). destruct w as [h hu hv hc z]. cbn [q_h q_hu q_hv q_hc q_Z]. pose proof (volume_pos cells nodes labels VM c Hc). f_equal; field; lra.
Qed.
Lemma uniform_evolution cfl tfinal n : forall time dt W t V, uniform W -> evolution cells nodes labels B order E cfl tfinal n time dt W t V -> uniform V.
Proof.
  intros time dt W t V U EV. induction EV as [time dt W W' _ EQ | n time dt W W' dt1 t V _ ST _ _ IH].
  - intros c Hc. rewrite (EQ c Hc). exact (U c Hc).
  - exact (IH (uniform_step dt W W' U ST)).
Qed.
End Uniform.
Section Ranks29.
Context (SIZE : Z) (cells : list (list Z)) (nodes : list pt) (labels npart0 epart : list Z) (st : setting).
Hypothesis VM : valid_mesh 2 cells nodes labels.
Hypothesis PL : planar nodes.
Hypothesis VS : valid_split 2 SIZE cells nodes npart0 epart.
Notation Ds := (se_domains st).
Notation Dr := (domain_of (se_domains st)).
Hypothesis RP : represents 2 SIZE cells nodes labels epart Ds.
Hypothesis SC : star_connected 2 cells.
Hypothesis CS : forall r, 0 <= r < SIZE -> consistent 2 (Dr r).
Hypothesis HX : 1 < SIZE -> forall (V : Type) (d : V) (X : Z -> V) (w : list (list V)), values_of d SIZE Ds X w -> exists halo, update_halo_value SIZE (se_comms st) w = Ok halo /\ halo_values_of d SIZE Ds X halo.
Hypothesis SP : spanned 2 cells nodes.
Notation PAr := (rp_part _ _ _ _ _ _ _ RP).
Notation size1 := (size11 2 SIZE cells nodes npart0 epart VS).
Notation dom r Hr := (dom11 2 SIZE cells nodes labels epart st RP r Hr).
Notation sizes := (Proofs_run5.sizes 2 SIZE cells nodes labels epart st RP).
Context (B : flow).
Hypothesis FU : flow_bc (fl_ubc B) (fl_uvs B).
Hypothesis FV : flow_bc (fl_vbc B) (fl_vvs B).
Hypothesis RU : readable SIZE st (fl_ubc B).
Hypothesis RV : readable SIZE st (fl_vbc B).
Context (order : Z) (co : swcoef) (cfl : R).
Hypothesis HCFL : (0 < cfl)%R.
Hypothesis HD : (0 <= co_Dx co + co_Dy co)%R.
Notation E := {| fe_Dx := co_Dx co; fe_Dy := co_Dy co; fe_Mann := co_Mann co; fe_fc := co_fc co |}.
Notation five := (five SIZE st B).
Notation state := (state SIZE st B order).
Notation gcell_cell := (gcell_cell SIZE cells nodes labels epart st RP).
Notation facets_of c := (facets (cell cells c)).
Notation PL2 := (fun _ : 2 = 2 => PL).
Notation W1 dt W := (fun c : Z => slowed E dt (W c)).
Notation all_terms := (forallb (fun t => has_term t (co_terms co)) ["convective"; "dissipation"; "source"; "coriolis"]%string = true).
(** a step exists if the fluxes do *)
Lemma step_exists dt W s : all_terms -> state W s -> (forall c, iscell cells c -> (0 < q_h (W c))%R /\ friction_factor E dt (W c) <> 0%R) ->
  (forall S T P, slopes cells nodes labels order (W1 dt W) S T P -> forall c F, has_facet 2 cells c F -> flux cells nodes labels B order (W1 dt W) S T P c F <> None) ->
  exists V, sw_step cells nodes labels B order E dt W V.
Proof.
  intros AT ST OK FX. destruct (update_ranks SIZE cells nodes labels npart0 epart st VS RP CS HX B FU FV RU RV order true W s ST) as (s1 & _ & S1 & F1).
  destruct (update_core SIZE cells nodes labels npart0 epart st VM PL VS RP SC CS HX SP B FU FV RU RV order co dt W s1 AT S1 F1 OK) as (Sl & Tl & Ps & N & G & SL & TR & _).
  set (Phi := fun (c : Z) (F : list Z) => match flux cells nodes labels B order (W1 dt W) Sl Tl Ps c F with Some x => x | None => q5_zero end).
  destruct (finite_choice (fun _ : list Z => 0%R) (zlen cells) (fun c H => part_depths cells nodes labels B (W1 dt W) c H) (zlen_nonneg _)) as (H & HH).
  { intros c Hc. exact (depths_exist_mesh cells nodes labels VM B (W1 dt W) (fun c Hc => proj1 (OK c Hc)) c Hc). }
  exists (stepped cells nodes labels B E dt (W1 dt W) Phi G H). split; [exact OK|]. exists Sl, Tl, Ps, N, G, Phi, H. split; [exact SL|]. split; [exact TR|]. split; [|split; [exact HH | reflexivity]].
  intros c F Hc HF. pose proof (FX Sl Tl Ps SL c F (has cells nodes labels VM c F Hc HF)) as Q. unfold Phi. destruct (flux _ _ _ _ _ _ _ _ _ c F); [reflexivity | congruence].
Qed.
(** states that keep their time step *)
Section Steady.
Context (I : (Z -> q5) -> Prop) (dt : R).
Hypothesis DP : (0 < dt)%R.
Hypothesis KEEP : forall W V, I W -> sw_step cells nodes labels B order E dt W V -> I V.
Hypothesis NEXT : forall W s, I W -> state W s -> exists V, sw_step cells nodes labels B order E dt W V.
Hypothesis SAME : forall W, I W -> longest cells nodes E cfl W dt.
Lemma steady_runs tfinal : all_terms -> forall n time W s, I W -> state W s -> (tfinal <= time + INR n * dt)%R -> exists m t V, (m <= n)%nat /\ evolution cells nodes labels B order E cfl tfinal m time dt W t V.
Proof.
  intros AT n. induction n as [|n IH]; intros time W s L ST TF.
  - exists O, time, W. split; [lia|]. apply ev_done; [cbn [INR] in TF; lra | reflexivity].
  - destruct (Rlt_dec time tfinal) as [LT|GE].
    + destruct (NEXT W s L ST) as (V & SV). pose proof (KEEP W V L SV) as LV. pose proof (SAME V LV) as LG.
      destruct (turn_complete SIZE cells nodes labels npart0 epart st VM PL VS RP SC CS HX SP B FU FV RU RV order co cfl HCFL HD true dt W V dt s AT ST SV LG) as (s' & _ & ST' & _).
      destruct (IH (time + dt)%R V s' LV ST') as (m & t & V' & Hm & EV); [rewrite S_INR in TF; lra|].
      exists (Datatypes.S m), t, V'. split; [lia|]. exact (ev_step _ _ _ _ _ _ _ _ _ _ _ _ _ _ _ _ LT SV LG EV).
    + exists O, time, W. split; [lia|]. apply ev_done; [lra | reflexivity].
Qed.
End Steady.
Notation flow_is f := (f = Some ((fl_ubc B, fl_uvs B), (fl_vbc B, fl_vvs B)) \/ f = None /\ B = {| fl_ubc := free; fl_uvs := []; fl_vbc := free; fl_vvs := [] |}).
Lemma uniform_program w f tfinal W0 w0 : (0 < q_h w)%R -> co_Mann co = 0%R -> co_fc co = 0%R ->
  (forall c F, only_cell 2 cells c F -> flow_value nodes labels (fl_ubc B) (fl_uvs B) F (q_hu w) = q_hu w /\ flow_value nodes labels (fl_vbc B) (fl_vvs B) F (q_hv w) = q_hv w) ->
  (forall c F, has_facet 2 cells c F -> ~ Spec_sw.critical g981 w w (outward cells nodes c F) (sqrt (vdot (outward cells nodes c F) (outward cells nodes c F)))) ->
  flow_is f -> all_terms -> values_of q5_zero SIZE Ds W0 w0 -> (forall c, iscell cells c -> W0 c = w) ->
  exists n t, (tfinal <= t)%R /\ forall fuel, (n <= fuel)%nat -> exists s V, sw_program fuel f order co cfl tfinal SIZE st w0 = Ok (Some (t, s)) /\ state V s /\ forall c, iscell cells c -> V c = w.
Proof.
  intros WET NOF NOC SIDES SUB FI AT HV L. destruct (start_ok SIZE cells nodes labels npart0 epart st VS RP CS B FU FV RU RV order f W0 w0 FI HV) as (s & ES & ST).
  destruct (time_ok SIZE cells nodes labels npart0 epart st VM VS RP CS B co cfl HCFL HD W0 s (proj1 ST) (fun c Hc => eq_ind_r (fun q => (0 < q_h q)%R) WET (L c Hc))) as (dt & ET & DP & LG).
  assert (exists n, (tfinal <= 0 + INR n * dt)%R) as (n & Hn).
  { exists (Z.to_nat (Z.abs (Reals.Rdefinitions.up (tfinal / dt)))). destruct (archimed (tfinal / dt)) as (A & _). rewrite INR_IZR_INZ, Z2Nat.id by lia.
    assert (tfinal / dt <= IZR (Z.abs (Reals.Rdefinitions.up (tfinal / dt))))%R by (apply Rle_trans with (IZR (Reals.Rdefinitions.up (tfinal / dt))); [lra | apply IZR_le; lia]).
    apply (Rmult_le_compat_r dt) in H; [|lra]. unfold Rdiv in H. rewrite Rmult_assoc, Rinv_l in H by lra. lra. }
  set (I := fun W : Z -> q5 => forall c, iscell cells c -> W c = w).
  assert (US : forall d, slowed E d w = w /\ friction_factor E d w = 1%R) by (intros d; exact (no_friction E w d NOF)).
  assert (KEEP : forall W V, I W -> sw_step cells nodes labels B order E dt W V -> I V) by (intros W V; exact (uniform_step cells nodes labels B order E VM w WET NOF NOC SIDES SUB dt W V)).
  assert (NEXT : forall W s, I W -> state W s -> exists V, sw_step cells nodes labels B order E dt W V).
  { intros W s' U ST'. apply (step_exists dt W s' AT ST').
    - intros c Hc. rewrite (U c Hc). split; [exact WET|]. rewrite (proj2 (US dt)). lra.
    - intros S T P SL c F HF. rewrite (uniform_flux cells nodes labels B order VM w WET SIDES SUB (W1 dt W) S T P c F); [discriminate | | exact SL | exact HF]. intros d Hd. cbv beta. rewrite (U d Hd). exact (proj1 (US dt)). }
  assert (SAME : forall W, I W -> longest cells nodes E cfl W dt) by (intros W U; apply (Proofs_run20.longest_same cells nodes E cfl W0 W dt); [intros c Hc; rewrite (L c Hc), (U c Hc); reflexivity | exact LG]).
  destruct (steady_runs I dt KEEP NEXT SAME tfinal AT n 0%R W0 s L ST Hn) as (m & t & V & _ & EV). exists m, t. split; [clear - EV; induction EV; assumption|]. intros fuel Hf.
  destruct (program_complete SIZE cells nodes labels npart0 epart st VM PL VS RP SC CS HX SP B FU FV RU RV order co cfl HCFL HD f fuel tfinal W0 w0 dt m t V FI AT HV LG EV Hf) as (s' & EP & SV & _). exists s', V. split; [exact EP|]. split; [exact SV|].
  exact (uniform_evolution cells nodes labels B order E VM w WET NOF NOC SIDES SUB cfl tfinal m _ _ _ _ _ L EV).
Qed.
End Ranks29.
