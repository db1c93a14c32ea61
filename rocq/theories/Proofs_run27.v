(** * Proofs_run27: a lake at rest stays at rest. *)
From Coq Require Import String Reals Lra Psatz Permutation Sorted.
From Verif Require Import Py PyLemmas Model_part Spec_part Model_label Model_conn Spec_conn Proofs_conn1 Proofs_conn2 Model_geom Spec_geom Proofs_geom1 Proofs_geom2 Proofs_geom3
  Model_halo Spec_halo Model_interp Spec_interp Spec_lsq Proofs_lsq Model_fvm Spec_fvm Proofs_fvm1 Proofs_fvm2 Model_bc Spec_bc Spec_bc3 Proofs_label Proofs_bc Proofs_bc2 Proofs_bc3 Model_domain Spec_domain
  Model_comm Model_parallel Spec_parallel Proofs_parallel1 Model_run Spec_run Proofs_run1 Proofs_run2 Proofs_run3 Proofs_run4 Proofs_run5 Proofs_run6 Spec_run2 Model_run2 Proofs_run7 Proofs_run8 Proofs_run9 Proofs_run10 Proofs_run11 Proofs_run12 Proofs_run13 Proofs_run14 Proofs_run15.
From Verif Require Import Model_sw Proofs_sw5 Proofs_sw6 Proofs_sw7 Model_run3 Spec_run4 Proofs_run17 Proofs_run18 Proofs_run19 Proofs_run20 Proofs_run21 Proofs_run22 Proofs_run23 Proofs_run24 Proofs_run26.
From Verif Require Spec_sw Properties_sw Proofs_sw8 Properties_parallel.
Open Scope Z_scope.

(** *** A lake at rest *)
Section Lake.
Context (cells : list (list Z)) (nodes : list pt) (labels : list Z) (B : flow) (order : Z) (E : friction_etc).
Hypothesis VM : valid_mesh 2 cells nodes labels.
Notation WF := (vm_mesh _ _ _ _ VM).
Notation PR := (vm_proper _ _ _ _ VM).
Notation NF := (vm_nonflat _ _ _ _ VM).
Notation facets_of c := (facets (cell cells c)).
Notation W1 dt W := (fun c : Z => slowed E dt (W c)).
Hypothesis FU : flow_bc (fl_ubc B) (fl_uvs B).
Hypothesis FV : flow_bc (fl_vbc B) (fl_vvs B).
Hypothesis QU : forall l t, In (l, t) (fl_ubc B) -> t <> BDirichlet.
Hypothesis QV : forall l t, In (l, t) (fl_vbc B) -> t <> BDirichlet.
Hypothesis FIRST : order <> 2.
Context (H0 : R).
Notation lake W := (forall c, iscell cells c -> Spec_sw.at_rest H0 (W c)).
Lemma rest_slowed dt w : Spec_sw.at_rest H0 w -> slowed E dt w = w /\ friction_factor E dt w = 1%R.
Proof.
  intros (A & U & V & _). destruct w as [h hu hv hc z]. cbn in *. subst hu hv. unfold slowed, friction_factor. cbn. split.
  - f_equal; unfold Rdiv; ring.
  - replace ((0 / h * (0 / h * 1) + 0 / h * (0 / h * 1)))%R with 0%R by (unfold Rdiv; ring). rewrite sqrt_0. unfold Rdiv. ring.
Qed.
Lemma lake_slowed dt W : lake W -> lake (W1 dt W).
Proof. intros L c Hc. cbv beta. rewrite (proj1 (rest_slowed dt _ (L c Hc))). exact (L c Hc). Qed.
Lemma rest_outside W c F : lake W -> has_facet 2 cells c F -> Spec_sw.at_rest H0 (outside cells nodes labels B W c F).
Proof.
  intros L HF. unfold outside. destruct (beside cells c F) as [d|] eqn:EB.
  - apply L. exact (proj1 (proj1 (beside_swap 2 cells nodes labels VM c d F HF EB))).
  - destruct (L c (proj1 HF)) as (A & U & V & Z0). pose proof (proj1 (beside_none 2 cells nodes WF PR c F HF) EB) as HO. unfold Spec_sw.at_rest. cbn [q_h q_hu q_hv q_Z]. rewrite U, V, (quiet_value cells nodes labels VM _ _ F c FU QU HO), (quiet_value cells nodes labels VM _ _ F c FV QV HO). repeat split; auto.
Qed.
Definition hp (W : Z -> q5) (c : Z) (F : list Z) : R := (((q_h (W c) + q_h (outside cells nodes labels B W c F)) / 2) ^ 2)%R.
Notation out c F := (outward cells nodes c F).
Lemma lake_flux W S T P c F : lake W -> has_facet 2 cells c F ->
  flux cells nodes labels B order W S T P c F = Some {| q_h := 0; q_hu := g981 * hp W c F / 2 * px (out c F); q_hv := g981 * hp W c F / 2 * py (out c F); q_hc := 0; q_Z := 0 |}%R.
Proof.
  intros L HF. unfold flux, hp. rewrite (first_at cells nodes order FIRST).
  replace (match beside cells c F with Some d => at_facet cells nodes order W S T P d F | None => outside cells nodes labels B W c F end) with (outside cells nodes labels B W c F).
  - exact (Properties_sw.C45_lake_flux g981 _ _ _ _ H0 g981_pos (outward_measures cells nodes labels c F VM HF) (L c (proj1 HF)) (rest_outside W c F L HF)).
  - unfold outside. destruct (beside cells c F); [rewrite (first_at cells nodes order FIRST); reflexivity | reflexivity].
Qed.
Lemma lake_force W c H k : lake W -> iscell cells c -> part_depths cells nodes labels B W c H -> k = px \/ k = py ->
  bottom_force cells nodes labels B W c H k = rsum (map (fun F => g981 * hp W c F / 2 * k (out c F))%R (facets_of c)).
Proof.
  intros L Hc PD Hk. destruct (arranged_exists cells nodes labels VM c Hc) as (a & b & d & F0 & F1 & F2 & AR).
  assert (HF : forall F, In F [F0; F1; F2] -> has_facet 2 cells c F) by (intros F HI; apply (has cells nodes labels VM c F Hc), (Permutation_in _ (Permutation_sym (ar_facets _ _ _ _ _ _ _ _ _ AR))); exact HI).
  pose proof (rest_outside W c F0 L (HF F0 (or_introl eq_refl))) as (A0 & _ & _ & Z0). pose proof (rest_outside W c F1 L (HF F1 (or_intror (or_introl eq_refl)))) as (A1 & _ & _ & Z1). pose proof (rest_outside W c F2 L (HF F2 (or_intror (or_intror (or_introl eq_refl))))) as (A2 & _ & _ & Z2).
  destruct (L c Hc) as (AC & _ & _ & ZC).
  destruct (normals_ok cells nodes labels VM c a b d F0 F1 F2 Hc AR) as (N0 & N1 & N2).
  pose proof (source_force cells nodes labels VM B W c a b d F0 F1 F2 Hc AR A0 A1 A2 H (W c) _ _ _ _ _ _ _ _ PD eq_refl eq_refl eq_refl eq_refl eq_refl eq_refl eq_refl (conj eq_refl eq_refl) (conj eq_refl eq_refl) (conj eq_refl eq_refl)) as SF.
  assert (TU : (0 < turn (at_node nodes a) (at_node nodes b) (at_node nodes d))%R) by exact (ar_turn _ _ _ _ _ _ _ _ _ AR).
  rewrite source_rest in SF; [|exact A0|exact A1|exact A2| lra | lra | lra | unfold edge; cbn [px]; ring | unfold edge; cbn [py]; ring | unfold edge; cbn [px py]; unfold turn in TU; lra].
  rewrite (sum_facets cells nodes c a b d F0 F1 F2 AR). rewrite N0, N1, N2. assert (SO : forall p q : R * R, Some p = Some q -> p = q) by congruence. apply SO in SF. pose proof (f_equal fst SF) as SX. pose proof (f_equal snd SF) as SY. cbn [fst snd] in SX, SY. destruct Hk as [-> | ->]; [rewrite <- SX | rewrite <- SY]; unfold hp; field.
Qed.
Lemma lake_step dt W V : lake W -> sw_step cells nodes labels B order E dt W V ->
  forall c, iscell cells c -> q_h (V c) = q_h (W c) /\ q_hu (V c) = 0%R /\ q_hv (V c) = 0%R /\ q_Z (V c) = q_Z (W c) /\ (fe_Dx E = 0%R -> fe_Dy E = 0%R -> q_hc (V c) = q_hc (W c)).
Proof.
  intros L (_ & S & T & P & N & G & Phi & H & SL & TR & HP & HH & HV) c Hc. pose proof (lake_slowed dt W L) as L1. rewrite (HV c Hc).
  assert (EP : forall F, In F (facets_of c) -> Phi c F = {| q_h := 0; q_hu := g981 * hp (W1 dt W) c F / 2 * px (out c F); q_hv := g981 * hp (W1 dt W) c F / 2 * py (out c F); q_hc := 0; q_Z := 0 |}%R).
  { intros F HF. pose proof (HP c F Hc HF) as Q. rewrite (lake_flux (W1 dt W) S T P c F L1 (has cells nodes labels VM c F Hc HF)) in Q. congruence. }
  destruct (L c Hc) as (AC & UC & VC & ZC). destruct (rest_slowed dt (W c) (L c Hc)) as (EW & _).
  unfold stepped. cbv zeta. cbn [q_h q_hu q_hv q_hc q_Z]. rewrite (lake_force _ c (H c) px L1 Hc (HH c Hc) (or_introl eq_refl)), (lake_force _ c (H c) py L1 Hc (HH c Hc) (or_intror eq_refl)). cbv beta in *. rewrite EW. unfold gain.
  rewrite (rsum_map_ext (fun F => q_h (Phi c F)) (fun _ => 0%R)) by (intros F HF; rewrite (EP F HF); reflexivity).
  rewrite (rsum_map_ext (fun F => q_hc (Phi c F)) (fun _ => 0%R)) by (intros F HF; rewrite (EP F HF); reflexivity).
  rewrite (rsum_map_zero (fun _ => 0%R)) by reflexivity.
  rewrite (rsum_map_ext (fun F => q_hu (Phi c F)) (fun F => g981 * hp (W1 dt W) c F / 2 * px (out c F))%R) by (intros F HF; rewrite (EP F HF); reflexivity).
  rewrite (rsum_map_ext (fun F => q_hv (Phi c F)) (fun F => g981 * hp (W1 dt W) c F / 2 * py (out c F))%R) by (intros F HF; rewrite (EP F HF); reflexivity).
  rewrite UC, VC. pose proof (volume_pos cells nodes labels VM c Hc) as MP. split; [field; lra|]. split; [field; lra|]. split; [field; lra|]. split; [reflexivity|].
  intros D1 D2. rewrite D1, D2. rewrite (rsum_map_zero (fun F => diffused _ _ _ _ _ _)); [field; lra|]. intros F _. unfold diffused, vdot. cbn [px py pz]. ring.
Qed.
Lemma lake_kept dt W V : lake W -> sw_step cells nodes labels B order E dt W V -> lake V.
Proof. intros L ST c Hc. destruct (lake_step dt W V L ST c Hc) as (A & U & V0 & Z0 & _). destruct (L c Hc) as (A' & _ & _ & Z'). unfold Spec_sw.at_rest. rewrite A, Z0. repeat split; assumption. Qed.
Definition same_lake (V W : Z -> q5) : Prop := forall c, iscell cells c -> q_h (V c) = q_h (W c) /\ q_hu (V c) = 0%R /\ q_hv (V c) = 0%R /\ q_Z (V c) = q_Z (W c) /\ (fe_Dx E = 0%R -> fe_Dy E = 0%R -> q_hc (V c) = q_hc (W c)).
Lemma lake_evolution cfl tfinal n : forall time dt W t V, lake W -> evolution cells nodes labels B order E cfl tfinal n time dt W t V -> same_lake V W.
Proof.
  intros time dt W t V L EV. induction EV as [time dt W W' _ EQ | n time dt W W' dt1 t V _ ST _ _ IH].
  - intros c Hc. rewrite (EQ c Hc). destruct (L c Hc) as (A & U & V0 & Z0). repeat split; assumption.
  - intros c Hc. destruct (lake_step dt W W' L ST c Hc) as (A & U & V0 & Z0 & C). destruct (IH (lake_kept dt W W' L ST) c Hc) as (A' & U' & V' & Z' & C'). rewrite A', U', V', Z', A, Z0. repeat split; try reflexivity. intros D1 D2. rewrite C', C by assumption. reflexivity.
Qed.
Lemma longest_same cfl dt V W : same_lake V W -> lake W -> longest cells nodes E cfl W dt -> longest cells nodes E cfl V dt.
Proof.
  intros SL L (A & (B1 & B2) & C).
  assert (EQ : forall c, iscell cells c -> wave_speed cells nodes E (V c) c = wave_speed cells nodes E (W c) c).
  { intros c Hc. destruct (SL c Hc) as (A0 & U & V0 & _). destruct (L c Hc) as (_ & UW & VW & _). unfold wave_speed. rewrite A0, U, V0, UW, VW. reflexivity. }
  split; [intros c Hc; rewrite (proj1 (SL c Hc)); exact (A c Hc)|]. split; [split; [exact B1 | intros c Hc; rewrite (EQ c Hc); exact (B2 c Hc)]|].
  intros dt' (D1 & D2). apply C. split; [exact D1|]. intros c Hc. rewrite <- (EQ c Hc). exact (D2 c Hc).
Qed.
End Lake.
