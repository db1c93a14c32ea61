(** * Proofs_run26: what the shallow-water scheme keeps: water, tracer, a lake at rest. *)
From Coq Require Import String Reals Lra Psatz Permutation Sorted.
From Verif Require Import Py PyLemmas Model_part Spec_part Model_label Model_conn Spec_conn Proofs_conn1 Proofs_conn2 Model_geom Spec_geom Proofs_geom1 Proofs_geom2 Proofs_geom3
  Model_halo Spec_halo Model_interp Spec_interp Spec_lsq Proofs_lsq Model_fvm Spec_fvm Proofs_fvm1 Proofs_fvm2 Model_bc Spec_bc Spec_bc3 Proofs_label Proofs_bc Proofs_bc2 Proofs_bc3 Model_domain Spec_domain
  Model_comm Model_parallel Spec_parallel Proofs_parallel1 Model_run Spec_run Proofs_run1 Proofs_run2 Proofs_run3 Proofs_run4 Proofs_run5 Proofs_run6 Spec_run2 Model_run2 Proofs_run7 Proofs_run8 Proofs_run9 Proofs_run10 Proofs_run11 Proofs_run12 Proofs_run13 Proofs_run14 Proofs_run15.
From Verif Require Import Model_sw Proofs_sw5 Proofs_sw6 Proofs_sw7 Model_run3 Spec_run4 Proofs_run17 Proofs_run18 Proofs_run19 Proofs_run20 Proofs_run21 Proofs_run22 Proofs_run23.
From Verif Require Spec_sw Properties_sw Proofs_sw8 Properties_parallel.
Open Scope Z_scope.



(** *** Sums over the facets: what two cells exchange cancels *)
Lemma sum_boundary cells nodes labels (f : Z -> list Z -> R) : valid_mesh 2 cells nodes labels ->
  (forall c d F, has_facet 2 cells c F -> beside cells c F = Some d -> f d F = (- f c F)%R) ->
  rsum (map (fun c => rsum (map (f c) (facets (cell cells c)))) (range (zlen cells))) = rsum (map (fun p => f (fst p) (snd p)) (boundary_facets cells)).
Proof.
  intros VM OP. set (fl := fun p => f (fst p) (snd p)).
  assert (IZ : rsum (map fl (inner_facets cells)) = 0%R).
  { apply (involution_sum _ (fun p => (match beside cells (fst p) (snd p) with Some d => d | None => 0 end, snd p))); [exact (inner_NoDup 2 cells nodes labels VM)|]. intros (c, F) HI. apply (in_inner 2 cells nodes labels VM) in HI as (HF & d & EB). unfold fl. cbn [fst snd]. rewrite EB. destruct (beside_swap 2 cells nodes labels VM c d F HF EB) as (Hd & NE & E').
    split; [apply (in_inner 2 cells nodes labels VM); split; [exact Hd | exists c; exact E']|]. rewrite E'. split; [reflexivity|]. exact (OP c d F HF EB). }
  rewrite <- (Rplus_0_r (rsum (map fl (boundary_facets cells)))), <- IZ. unfold inner_facets, boundary_facets. clear IZ OP. induction (range (zlen cells)) as [|c l IH]; cbn [map flat_map]; [cbn; ring|]. rewrite rsum_cons, IH, !map_app, !rsum_app. set (a := rsum (map _ (flat_map _ l))). set (b := rsum (map _ (flat_map _ l))).
  rewrite !map_map. unfold fl at 1 2. cbn [fst snd]. rewrite !rsum_filter.
  replace (rsum (map (f c) (facets (cell cells c)))) with (rsum (map (fun x => if match beside cells c x with Some _ => false | None => true end then f c x else 0%R) (facets (cell cells c))) + rsum (map (fun x => if match beside cells c x with Some _ => true | None => false end then f c x else 0%R) (facets (cell cells c))))%R; [ring|].
  rewrite <- rsum_map_add. apply rsum_map_ext. intros F _. destruct (beside cells c F); ring.
Qed.
Section Keeps.
Context (cells : list (list Z)) (nodes : list pt) (labels : list Z) (B : flow) (order : Z) (E : friction_etc).
Hypothesis VM : valid_mesh 2 cells nodes labels.
Notation WF := (vm_mesh _ _ _ _ VM).
Notation PR := (vm_proper _ _ _ _ VM).
Notation NF := (vm_nonflat _ _ _ _ VM).
Notation facets_of c := (facets (cell cells c)).
Notation m c := (measure_of cells nodes c).
Notation total k W := (rsum (map (fun c : Z => measure_of cells nodes c * k (W c))%R (range (zlen cells)))).
Notation W1 dt W := (fun c : Z => slowed E dt (W c)).

Lemma has c F : iscell cells c -> In F (facets_of c) -> has_facet 2 cells c F.
Proof. intros Hc HF. exact (proj1 (facets_iff 2 cells nodes WF c F Hc) HF). Qed.
Lemma outward_swap c d F : has_facet 2 cells c F -> beside cells c F = Some d -> outward cells nodes d F = vscal (-1) (outward cells nodes c F).
Proof.
  intros HF EB. destruct (beside_swap 2 cells nodes labels VM c d F HF EB) as (Hd & NE & _).
  exact (Properties_parallel.outward_opposite 2 cells nodes c d F _ _ WF PR HF Hd NE (outward_ok 2 cells nodes WF NF c F HF) (outward_ok 2 cells nodes WF NF d F Hd)).
Qed.
Lemma flux_opposite W S T P c d F : has_facet 2 cells c F -> beside cells c F = Some d -> flux cells nodes labels B order W S T P d F = oopp5 (flux cells nodes labels B order W S T P c F).
Proof.
  intros HF EB. destruct (beside_swap 2 cells nodes labels VM c d F HF EB) as (Hd & NE & E'). unfold flux. rewrite EB, E', (outward_swap c d F HF EB).
  replace (vdot (vscal (-1) (outward cells nodes c F)) (vscal (-1) (outward cells nodes c F))) with (vdot (outward cells nodes c F) (outward cells nodes c F)) by (unfold vdot, vscal; cbn [px py pz]; ring).
  apply Properties_sw.C55_antisymmetric; [exact g981_pos | exact (outward_measures cells nodes labels c F VM HF) | unfold vscal; cbn [px]; ring | unfold vscal; cbn [py]; ring].
Qed.
Lemma volume_pos c : iscell cells c -> (0 < m c)%R.
Proof.
  intros Hc. pose proof (NF c Hc) as H. destruct (row_facts 2 cells nodes WF c Hc) as (L & _). unfold measure_of, cell_measure. unfold nonflat in H.
  destruct (cell cells c) as [|a [|b [|d [|e R]]]] eqn:ER; unfold zlen in L; cbn [length] in L; try lia. cbn [map] in *. destruct H as (_ & H). pose proof (Rabs_pos_lt _ H). lra.
Qed.
(** *** The balance of a field *)
Lemma sums (k : q5 -> R) (V W : Z -> q5) (f : Z -> list Z -> R) dt : (forall c, iscell cells c -> k (V c) = (k (W c) + dt * (- rsum (map (f c) (facets_of c)) / m c))%R) ->
  (forall c d F, has_facet 2 cells c F -> beside cells c F = Some d -> f d F = (- f c F)%R) ->
  total k V = (total k W - dt * rsum (map (fun p => f (fst p) (snd p)) (boundary_facets cells)))%R.
Proof.
  intros HV OP. rewrite <- (sum_boundary cells nodes labels f VM OP). unfold Rminus. rewrite <- Ropp_mult_distr_l_reverse, <- rsum_map_scal, <- rsum_map_add. apply rsum_map_ext. intros c Hc. apply in_range in Hc. rewrite (HV c Hc). pose proof (volume_pos c Hc). field. lra.
Qed.
Lemma diffused_opposite W N G c d F : tracer_slopes cells nodes labels W N G -> has_facet 2 cells c F -> beside cells c F = Some d ->
  diffused cells nodes (P3 (fe_Dx E) (fe_Dy E) 0) (G d F) d F = (- diffused cells nodes (P3 (fe_Dx E) (fe_Dy E) 0) (G c F) c F)%R.
Proof.
  intros (_ & TS) HF EB. destruct (beside_swap 2 cells nodes labels VM c d F HF EB) as (Hd & NE & E').
  pose proof (TS c F (proj1 HF) (proj2 (facets_iff 2 cells nodes WF c F (proj1 HF)) HF)) as T1. pose proof (TS d F (proj1 Hd) (proj2 (facets_iff 2 cells nodes WF d F (proj1 Hd)) Hd)) as T2.
  rewrite (facet_slope_unique 2 cells nodes labels free [] VM _ N d F (G d F) (G c F) Hd T2 (facet_slope_swap 2 cells nodes labels free [] VM _ N c d F _ HF EB T1)).
  unfold diffused. rewrite (outward_swap c d F HF EB). unfold vdot, vscal. cbn [px py pz]. ring.
Qed.
Notation K := (P3 (fe_Dx E) (fe_Dy E) 0).
Lemma step_balance dt W V : sw_step cells nodes labels B order E dt W V ->
  exists S T P N G Phi, slopes cells nodes labels order (W1 dt W) S T P /\ tracer_slopes cells nodes labels (W1 dt W) N G /\
    (forall c F, iscell cells c -> In F (facets_of c) -> flux cells nodes labels B order (W1 dt W) S T P c F = Some (Phi c F)) /\
    total q_h V = (total q_h W - dt * rsum (map (fun p => q_h (Phi (fst p) (snd p))) (boundary_facets cells)))%R /\
    total q_hc V = (total q_hc W - dt * rsum (map (fun p => q_hc (Phi (fst p) (snd p)) + diffused cells nodes K (G (fst p) (snd p)) (fst p) (snd p)) (boundary_facets cells)))%R.
Proof.
  intros (_ & S & T & P & N & G & Phi & H & SL & TR & HP & HH & HV). exists S, T, P, N, G, Phi. split; [exact SL|]. split; [exact TR|]. split; [exact HP|].
  assert (OP : forall c d F, has_facet 2 cells c F -> beside cells c F = Some d -> Phi d F = q5_opp (Phi c F)).
  { intros c d F HF EB. destruct (beside_swap 2 cells nodes labels VM c d F HF EB) as (Hd & NE & E'). pose proof (flux_opposite (W1 dt W) S T P c d F HF EB) as FO.
    rewrite (HP c F (proj1 HF)) in FO by (apply (facets_iff 2 cells nodes WF); [exact (proj1 HF) | exact HF]). rewrite (HP d F (proj1 Hd)) in FO by (apply (facets_iff 2 cells nodes WF); [exact (proj1 Hd) | exact Hd]). cbn [oopp5] in FO. congruence. }
  split.
  - apply (sums q_h V W (fun c F => q_h (Phi c F))); [|intros c d F HF EB; rewrite (OP c d F HF EB); reflexivity]. intros c Hc. rewrite (HV c Hc). reflexivity.
  - apply (sums q_hc V W (fun c F => (q_hc (Phi c F) + diffused cells nodes K (G c F) c F)%R)).
    + intros c Hc. rewrite (HV c Hc). unfold stepped. cbv zeta. cbn [q_hc]. unfold gain. rewrite rsum_map_add. cbn [slowed q_hc]. f_equal. f_equal. f_equal. ring.
    + intros c d F HF EB. rewrite (OP c d F HF EB), (diffused_opposite _ N G c d F TR HF EB). cbn [q5_opp q_hc]. ring.
Qed.
(** *** Walls *)
Lemma side_found bc vs F c : flow_bc bc vs -> only_cell 2 cells c F -> exists l t, find (fun e => side_label (fst e) =? face_label (priority 2) (map (nthZ 0 labels) F)) bc = Some (l, t) /\ In (l, t) bc.
Proof.
  intros (ND & TY & CO & _) HO. destruct (side_of_label 2 _ (or_introl eq_refl) (vm_boundary _ _ _ _ VM c F HO)) as (l0 & Hl0 & El0).
  destruct (find _ bc) as [(l, t)|] eqn:EF; [exists l, t; split; [reflexivity | exact (proj1 (find_some _ _ EF))]|].
  exfalso. specialize (CO l0 Hl0). apply in_map_iff in CO as ((l1, t1) & E1 & HI). cbn [fst] in E1. subst l1. pose proof (find_none _ _ EF _ HI) as X0. cbv beta in X0. cbn [fst] in X0. lia.
Qed.
Hypothesis FU : flow_bc (fl_ubc B) (fl_uvs B).
Hypothesis FV : flow_bc (fl_vbc B) (fl_vvs B).
Notation no_dirichlet bc := (forall l t, In (l, t) bc -> t <> BDirichlet).
Lemma quiet_value bc vs F c : flow_bc bc vs -> no_dirichlet bc -> only_cell 2 cells c F -> flow_value nodes labels bc vs F 0%R = 0%R.
Proof.
  intros FB QB HO. destruct (side_found bc vs F c FB HO) as (l & t & EF & HI). unfold flow_value, boundary_value. rewrite EF. specialize (QB l t HI). destruct t; try reflexivity; [congruence | ring].
Qed.
Lemma wall_value bc vs F c x : flow_bc bc vs -> (forall l t, In (l, t) bc -> t = BNonslip) -> only_cell 2 cells c F -> flow_value nodes labels bc vs F x = (- x)%R.
Proof. intros FB QB HO. destruct (side_found bc vs F c FB HO) as (l & t & EF & HI). unfold flow_value. rewrite EF, (QB l t HI). reflexivity. Qed.
Section Walls.
Hypothesis WALL : forall l t, In (l, t) (fl_ubc B) \/ In (l, t) (fl_vbc B) -> t = BNonslip.
Hypothesis FIRST : order <> 2.
Lemma first_at W S T P c F : at_facet cells nodes order W S T P c F = W c.
Proof. unfold at_facet. destruct (Z.eqb_spec order 2); [contradiction | reflexivity]. Qed.
Lemma wall_facet W S T P c F X : In (c, F) (boundary_facets cells) -> flux cells nodes labels B order W S T P c F = Some X -> q_h X = 0%R /\ q_hc X = 0%R.
Proof.
  intros HB EX. apply (in_boundary 2 cells nodes labels VM) in HB as HO. pose proof (proj1 HO) as HF. unfold flux in EX. rewrite !first_at in EX. unfold outside in EX.
  rewrite (proj2 (beside_none 2 cells nodes WF PR c F HF) HO) in EX.
  refine (match Properties_sw.C58_wall g981 _ _ _ _ _ g981_pos (outward_measures cells nodes labels c F VM HF) _ EX with conj A (conj B' _) => conj A B' end).
  unfold Spec_sw.wall_ghost, Spec_sw.discharge. cbn [q_h q_hu q_hv q_Z]. rewrite (wall_value _ _ F c _ FU (fun l t H => WALL l t (or_introl H)) HO), (wall_value _ _ F c _ FV (fun l t H => WALL l t (or_intror H)) HO). split; [reflexivity|]. split; [reflexivity | ring].
Qed.
(** no diffusion through a wall, if the diffusivity is the same in all directions *)
Lemma wall_diffusion W N G c F : fe_Dx E = fe_Dy E -> tracer_slopes cells nodes labels W N G -> In (c, F) (boundary_facets cells) -> diffused cells nodes K (G c F) c F = 0%R.
Proof.
  intros ED (_ & TS) HB. apply (in_boundary 2 cells nodes labels VM) in HB as HO. pose proof (proj1 HO) as HF. pose proof (proj2 (beside_none 2 cells nodes WF PR c F HF) HO) as EB.
  destruct (TS c F (proj1 HF) (proj2 (facets_iff 2 cells nodes WF c F (proj1 HF)) HF)) as (GR & _ & AC). unfold value_beyond in AC. rewrite EB, free_value in AC. rewrite Rminus_diag_eq in AC by reflexivity.
  pose proof (point_outside 2 cells nodes labels VM c F HF) as PO. unfold point_beyond in AC, PO. rewrite EB in AC, PO. destruct (area_outward 2 cells nodes labels VM c F HF) as (e & He & EA).
  set (n := outward cells nodes c F) in *. set (x := centre 2 cells nodes c) in *.
  assert (RX : exists k, vsub (reflection nodes F x) x = vscal k n).
  { unfold reflection. rewrite EA. set (t := (2 * vdot (vscal e n) _ / _)%R). exists (- t * e)%R. unfold vsub, vadd, vscal. cbn [px py pz]. f_equal; ring. }
  destruct RX as (k & RX). rewrite RX in AC, PO. assert (Hk : k <> 0%R). { intros ->. unfold vdot, vscal in PO. cbn [px py pz] in PO. lra. }
  assert (SN : vdot (G c F) n = 0%R). { apply (Rmult_eq_reg_l k); [|exact Hk]. rewrite Rmult_0_r, <- AC. unfold vdot, vscal. cbn [px py pz]. ring. }
  unfold diffused. fold n. cbn [px py pz]. rewrite <- ED. pose proof (outward_flat cells nodes labels c F VM HF) as PZ. fold n in PZ. unfold vdot in SN |- *. cbn [px py pz]. rewrite PZ in SN |- *. replace (fe_Dx E * px (G c F) * px n + fe_Dx E * py (G c F) * py n + 0 * pz (G c F) * 0)%R with (fe_Dx E * (px (G c F) * px n + py (G c F) * py n + pz (G c F) * 0))%R by ring. rewrite SN. ring.
Qed.
Lemma step_closed dt W V : sw_step cells nodes labels B order E dt W V -> total q_h V = total q_h W /\ (fe_Dx E = fe_Dy E -> total q_hc V = total q_hc W).
Proof.
  intros ST. destruct (step_balance dt W V ST) as (S & T & P & N & G & Phi & SL & TR & HP & TH & TC).
  assert (Z0 : forall p, In p (boundary_facets cells) -> q_h (Phi (fst p) (snd p)) = 0%R /\ q_hc (Phi (fst p) (snd p)) = 0%R).
  { intros (c, F) Hp. pose proof Hp as HO. apply (in_boundary 2 cells nodes labels VM) in HO. pose proof (proj1 HO) as HF. apply (wall_facet (W1 dt W) S T P c F); [exact Hp|]. apply HP; [exact (proj1 HF) | apply (facets_iff 2 cells nodes WF); [exact (proj1 HF) | exact HF]]. }
  split.
  - rewrite TH. replace (rsum (map _ (boundary_facets cells))) with 0%R; [ring|]. symmetry. apply rsum_map_zero. intros p Hp. exact (proj1 (Z0 p Hp)).
  - intros ED. rewrite TC. replace (rsum (map _ (boundary_facets cells))) with 0%R; [ring|]. symmetry. apply rsum_map_zero. intros (c, F) Hp. cbn [fst snd]. rewrite (wall_diffusion _ N G c F ED TR Hp). pose proof (proj2 (Z0 _ Hp)) as Q. cbn [fst snd] in Q. rewrite Q. ring.
Qed.
Lemma closed cfl tfinal n : forall time dt W t V, evolution cells nodes labels B order E cfl tfinal n time dt W t V -> total q_h V = total q_h W /\ (fe_Dx E = fe_Dy E -> total q_hc V = total q_hc W).
Proof.
  intros time dt W t V EV. induction EV as [time dt W W' _ EQ | n time dt W W' dt1 t V _ ST _ _ IH].
  - split; intros; apply rsum_map_ext; intros c Hc; apply in_range in Hc; rewrite (EQ c Hc); reflexivity.
  - destruct (step_closed dt W W' ST) as (A1 & A2). destruct IH as (B1 & B2). split; [congruence | intros ED; rewrite B2, A2 by exact ED; reflexivity].
Qed.
End Walls.
End Keeps.
