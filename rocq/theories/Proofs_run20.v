(** * Proofs_run20: the shallow-water scheme determines its result. *)
From Coq Require Import Reals Lra Psatz Permutation Sorted.
From Verif Require Import Py PyLemmas Model_part Spec_part Model_label Model_conn Spec_conn Proofs_conn1 Proofs_conn2 Model_geom Spec_geom Proofs_geom1 Proofs_geom2 Proofs_geom3
  Model_halo Spec_halo Model_interp Spec_interp Spec_lsq Proofs_lsq Model_fvm Spec_fvm Proofs_fvm1 Proofs_fvm2 Model_bc Spec_bc Model_domain Spec_domain
  Model_comm Model_parallel Spec_parallel Proofs_parallel1 Model_run Spec_run Proofs_run1 Proofs_run3 Proofs_run6 Spec_run2 Model_run2 Proofs_run7 Proofs_run13 Proofs_run15.
From Verif Require Import Model_sw Spec_run4 Proofs_run17 Proofs_run18 Proofs_run19.
Open Scope Z_scope.

Section Mesh20.
Context (cells : list (list Z)) (nodes : list pt) (labels : list Z) (B : flow) (order : Z) (E : friction_etc).
Hypothesis VM : valid_mesh 2 cells nodes labels.
Notation WF := (vm_mesh _ _ _ _ VM).
Notation facets_of c := (facets (cell cells c)).
Lemma beside_cell c F d : beside cells c F = Some d -> iscell cells d.
Proof. unfold beside. intros H. apply find_some in H as (H & _). apply in_range in H. exact H. Qed.

Section Same.
Context (W W' : Z -> q5).
Hypothesis EW : forall c, iscell cells c -> W c = W' c.
Lemma outside_same c F : iscell cells c -> outside cells nodes labels B W c F = outside cells nodes labels B W' c F.
Proof. intros Hc. unfold outside. destruct (beside cells c F) as [d|] eqn:EB; [apply EW, (beside_cell _ _ _ EB)|]. rewrite (EW c Hc). reflexivity. Qed.
Lemma slopes_unique S T P S' T' P' : slopes cells nodes labels order W S T P -> slopes cells nodes labels order W' S' T' P' -> order = 2 -> forall c, iscell cells c -> S c = S' c /\ T c = T' c /\ P c = P' c.
Proof.
  intros A A' EO c Hc. destruct (A EO c Hc) as (a & b & p). destruct (A' EO c Hc) as (a' & b' & p').
  assert (EH : forall c, iscell cells c -> (fun c => q_h (W c)) c = (fun c => q_h (W' c)) c) by (intros x Hx; cbv beta; rewrite (EW x Hx); reflexivity).
  assert (EC : forall c, iscell cells c -> (fun c => q_hc (W c)) c = (fun c => q_hc (W' c)) c) by (intros x Hx; cbv beta; rewrite (EW x Hx); reflexivity).
  assert (ES : S c = S' c) by (symmetry; apply (best_slope_unique _ _ _ _ _ _ (slope_same 2 cells nodes labels free [] VM _ _ EH c _ Hc a) a')).
  assert (ET : T c = T' c) by (symmetry; apply (best_slope_unique _ _ _ _ _ _ (slope_same 2 cells nodes labels free [] VM _ _ EC c _ Hc b) b')).
  split; [exact ES|]. split; [exact ET|]. rewrite ET in p. exact (limiter_unique _ _ _ _ _ _ _ _ _ _ _ (limiter_same 2 cells nodes labels free [] _ _ _ c _ EC Hc p) p').
Qed.
Lemma at_facet_same S T P S' T' P' c F : slopes cells nodes labels order W S T P -> slopes cells nodes labels order W' S' T' P' -> iscell cells c ->
  at_facet cells nodes order W S T P c F = at_facet cells nodes order W' S' T' P' c F.
Proof.
  intros A A' Hc. unfold at_facet. destruct (order =? 2) eqn:EO; [|apply EW, Hc]. apply Z.eqb_eq in EO. destruct (slopes_unique _ _ _ _ _ _ A A' EO c Hc) as (E1 & E2 & E3).
  unfold reconstructed. rewrite E1, E2, E3, (EW c Hc). reflexivity.
Qed.
Lemma flux_same S T P S' T' P' c F : slopes cells nodes labels order W S T P -> slopes cells nodes labels order W' S' T' P' -> iscell cells c ->
  flux cells nodes labels B order W S T P c F = flux cells nodes labels B order W' S' T' P' c F.
Proof.
  intros A A' Hc. unfold flux. rewrite (at_facet_same _ _ _ _ _ _ c F A A' Hc). destruct (beside cells c F) as [d|] eqn:EB.
  - rewrite (at_facet_same _ _ _ _ _ _ d F A A' (beside_cell _ _ _ EB)). reflexivity.
  - rewrite (outside_same c F Hc). reflexivity.
Qed.
Lemma tracer_unique N G N' G' : tracer_slopes cells nodes labels W N G -> tracer_slopes cells nodes labels W' N' G' -> forall c F, iscell cells c -> In F (facets_of c) -> G c F = G' c F.
Proof.
  intros (A2 & A3) (B2 & B3) c F Hc HF.
  assert (EC : forall c, iscell cells c -> (fun c => q_hc (W c)) c = (fun c => q_hc (W' c)) c) by (intros x Hx; cbv beta; rewrite (EW x Hx); reflexivity).
  assert (E2 : forall g, In g (cell cells c) -> N g = N' g) by (intros g Hg; exact (nodal_unique _ _ _ _ _ _ _ _ _ _ (nodal_same 2 cells nodes labels free [] VM _ _ EC g _ (A2 c g Hc Hg)) (B2 c g Hc Hg))).
  pose proof (proj1 (facets_iff 2 cells nodes WF c F Hc) HF) as HF'.
  apply (facet_slope_unique 2 cells nodes labels free [] VM (fun c => q_hc (W' c)) N' c F); [exact HF' | | apply B3; assumption].
  apply (facet_same 2 cells nodes labels free [] (fun c => q_hc (W c)) _ EC N N' c F _ HF' E2). apply A3; assumption.
Qed.
Lemma depths_same c H : iscell cells c -> part_depths cells nodes labels B W c H -> part_depths cells nodes labels B W' c H.
Proof.
  intros Hc (A & A'). split; [rewrite <- (EW c Hc); exact A|]. intros k Hk. rewrite <- (EW c Hc). specialize (A' k Hk).
  rewrite (map_ext_in _ (fun F => H F * q_h (outside cells nodes labels B W' c F) * k (outward cells nodes c F))%R) in A' by (intros F HF; rewrite (outside_same c F Hc); reflexivity).
  rewrite A'. f_equal. apply map_ext_in. intros F HF. rewrite (outside_same c F Hc). reflexivity.
Qed.
Lemma force_same c H k : iscell cells c -> bottom_force cells nodes labels B W c H k = bottom_force cells nodes labels B W' c H k.
Proof.
  intros Hc. unfold bottom_force. do 2 f_equal. apply map_ext_in. intros F HF. rewrite (outside_same c F Hc). unfold part_bottom. rewrite (EW c Hc). reflexivity.
Qed.
Lemma stepped_same dt Phi Phi' G G' H H' c : iscell cells c -> (forall c, iscell cells c -> (0 < q_h (W c))%R) ->
  (forall F, In F (facets_of c) -> Phi c F = Phi' c F) -> (forall F, In F (facets_of c) -> G c F = G' c F) -> part_depths cells nodes labels B W c (H c) -> part_depths cells nodes labels B W' c (H' c) ->
  stepped cells nodes labels B E dt W Phi G H c = stepped cells nodes labels B E dt W' Phi' G' H' c.
Proof.
  intros Hc WET EP EG HD HD'. unfold stepped. rewrite <- (EW c Hc). cbv zeta.
  assert (GN : forall k, gain cells Phi k c = gain cells Phi' k c) by (intros k; unfold gain; do 2 f_equal; apply map_ext_in; intros F HF; rewrite (EP F HF); reflexivity).
  rewrite !GN. destruct (arranged_exists cells nodes labels VM c Hc) as (a & b & d & F0 & F1 & F2 & AR). pose proof (ar_facets _ _ _ _ _ _ _ _ _ AR) as PF.
  assert (WO : forall F, In F [F0; F1; F2] -> (0 < q_h (outside cells nodes labels B W' c F))%R).
  { intros F HF. rewrite <- (outside_same c F Hc). apply (outside_wet cells nodes labels VM B W WET c F Hc). apply (Permutation_in _ (Permutation_sym PF)), HF. }
  assert (EH : forall k, k = px \/ k = py -> bottom_force cells nodes labels B W c (H c) k = bottom_force cells nodes labels B W' c (H' c) k).
  { intros k Hk. rewrite (force_same c (H c) k Hc). apply (force_depends cells nodes labels VM B W' c a b d F0 F1 F2 Hc AR); [|exact Hk].
    apply (depths_unique cells nodes labels VM B W' c a b d F0 F1 F2 Hc AR); [apply WO; cbn; auto | apply WO; cbn; auto | apply WO; cbn; auto | apply depths_same; assumption | exact HD']. }
  rewrite !EH by auto. rewrite (map_ext_in _ (fun F => diffused cells nodes (P3 (fe_Dx E) (fe_Dy E) 0) (G' c F) c F)) by (intros F HF; rewrite (EG F HF); reflexivity). reflexivity.
Qed.
End Same.

Notation W1 dt W := (fun c : Z => slowed E dt (W c)).
(** a step with slopes and tracer slopes found in another way *)
Lemma step_with dt W V S T P N G : slopes cells nodes labels order (W1 dt W) S T P -> tracer_slopes cells nodes labels (W1 dt W) N G -> sw_step cells nodes labels B order E dt W V ->
  exists Phi H, (forall c F, iscell cells c -> In F (facets_of c) -> flux cells nodes labels B order (W1 dt W) S T P c F = Some (Phi c F)) /\
    (forall c, iscell cells c -> part_depths cells nodes labels B (W1 dt W) c (H c)) /\ forall c, iscell cells c -> V c = stepped cells nodes labels B E dt (W1 dt W) Phi G H c.
Proof.
  intros SL TR (WET & S' & T' & P' & N' & G' & Phi & H & SL' & TR' & HP & HD & HV). exists Phi, H. split; [|split; [exact HD|]].
  - intros c F Hc HF. rewrite <- (HP c F Hc HF). apply flux_same; [reflexivity | exact SL | exact SL' | exact Hc].
  - intros c Hc. rewrite (HV c Hc). apply stepped_same; [reflexivity | exact Hc | | reflexivity | | exact (HD c Hc) | exact (HD c Hc)].
    + intros x Hx. exact (proj1 (WET x Hx)).
    + intros F HF. apply (tracer_unique (W1 dt W) (W1 dt W) (fun _ _ => eq_refl) N' G' N G TR' TR c F Hc HF).
Qed.
Lemma step_unique dt W W' V V' : (forall c, iscell cells c -> W c = W' c) -> sw_step cells nodes labels B order E dt W V -> sw_step cells nodes labels B order E dt W' V' -> forall c, iscell cells c -> V c = V' c.
Proof.
  intros EW (WET & S & T & P & N & G & Phi & H & SL & TR & HP & HD & HV) (WET' & S' & T' & P' & N' & G' & Phi' & H' & SL' & TR' & HP' & HD' & HV') c Hc.
  assert (E1 : forall c, iscell cells c -> (W1 dt W) c = (W1 dt W') c) by (intros x Hx; cbv beta; rewrite (EW x Hx); reflexivity).
  rewrite (HV c Hc), (HV' c Hc). apply stepped_same; [exact E1 | exact Hc | | | | exact (HD c Hc) | exact (HD' c Hc)].
  - intros x Hx. exact (proj1 (WET x Hx)).
  - intros F HF. pose proof (HP c F Hc HF) as A. pose proof (HP' c F Hc HF) as A'. rewrite (flux_same _ _ E1 _ _ _ _ _ _ c F SL SL' Hc), A' in A. congruence.
  - intros F HF. exact (tracer_unique _ _ E1 _ _ _ _ TR TR' c F Hc HF).
Qed.
Lemma longest_same cfl W W' dt : (forall c, iscell cells c -> W c = W' c) -> longest cells nodes E cfl W dt -> longest cells nodes E cfl W' dt.
Proof.
  intros EW (A1 & A2 & A3). split; [|split].
  - intros c Hc. rewrite <- (EW c Hc). exact (A1 c Hc).
  - destruct A2 as (X & Y). split; [exact X|]. intros c Hc. rewrite <- (EW c Hc). exact (Y c Hc).
  - intros dt' (X & Y). apply A3. split; [exact X|]. intros c Hc. rewrite (EW c Hc). exact (Y c Hc).
Qed.
Lemma longest_unique cfl W W' dt dt' : (forall c, iscell cells c -> W c = W' c) -> longest cells nodes E cfl W dt -> longest cells nodes E cfl W' dt' -> dt = dt'.
Proof. intros EW A A'. apply (longest_same cfl W W' dt EW) in A. destruct A as (_ & A1 & A2). destruct A' as (_ & A1' & A2'). apply Rle_antisym; [apply A2', A1 | apply A2, A1']. Qed.
Lemma evolution_unique cfl tfinal n : forall time dt W W0 t V n' t' V', (forall c, iscell cells c -> W c = W0 c) ->
  evolution cells nodes labels B order E cfl tfinal n time dt W t V -> evolution cells nodes labels B order E cfl tfinal n' time dt W0 t' V' -> n = n' /\ t = t' /\ forall c, iscell cells c -> V c = V' c.
Proof.
  induction n as [|n IH]; intros time dt W W0 t V n' t' V' EW A A'.
  - inversion A as [? ? ? ? L EV|]; subst. inversion A' as [? ? ? ? L' EV'|? ? ? ? ? ? ? ? L']; subst; [|lra].
    split; [reflexivity|]. split; [reflexivity|]. intros c Hc. rewrite (EV c Hc), (EV' c Hc). apply EW, Hc.
  - inversion A as [|? ? ? ? U d1 ? ? L ST LO EV]; subst. inversion A' as [? ? ? ? L' EV'|m ? ? ? U' d1' ? ? L' ST' LO' EV']; subst; [lra|].
    pose proof (step_unique dt W W0 U U' EW ST ST') as EU. rewrite <- (longest_unique cfl U U' d1 d1' EU LO LO') in EV'.
    destruct (IH _ _ _ _ _ _ _ _ _ EU EV EV') as (-> & -> & EE). split; [reflexivity|]. split; [reflexivity | exact EE].
Qed.
End Mesh20.
