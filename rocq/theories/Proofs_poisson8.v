(** * Proofs_poisson8: properties of the discrete Laplacian. *)
From Coq Require Import Reals Lra Permutation Sorted.
From Verif Require Import Py PyLemmas Model_part Spec_part Model_label Model_conn Spec_conn Proofs_conn1 Proofs_conn2 Model_geom Spec_geom Proofs_geom1 Proofs_geom2 Proofs_geom3
  Model_halo Spec_halo Model_interp Spec_interp Proofs_interp4 Proofs_interp5 Proofs_interp6 Spec_lsq Proofs_lsq Properties_lsq Model_fvm Spec_fvm Proofs_fvm1 Proofs_fvm2 Properties_fvm Model_bc Spec_bc Spec_bc3 Proofs_label Proofs_bc Proofs_bc2 Proofs_bc3 Properties_bc3 Model_domain Spec_domain Proofs_domain1 Proofs_domain4
  Model_comm Model_parallel Spec_parallel Proofs_parallel1 Proofs_parallel6 Properties_parallel Model_run Spec_run Proofs_run1 Proofs_run2 Proofs_run3 Proofs_run4 Proofs_run5 Proofs_run6 Spec_run2 Model_run2 Proofs_run7 Proofs_run8 Proofs_run9 Proofs_run10 Proofs_run11 Proofs_run12 Proofs_run13 Proofs_run14 Proofs_run15 Spec_run3 Proofs_run16 Model_poisson Spec_poisson Proofs_poisson1 Proofs_poisson2 Proofs_poisson3 Spec_poisson2 Proofs_poisson4 Proofs_poisson5 Proofs_poisson6 Proofs_poisson7.
From Verif Require Model_linsys Spec_linsys Properties_linsys.
Open Scope Z_scope.

Lemma misfit_shift l k c g : misfit (map (fun q => (fst q, (snd q + k)%R)) l) (c + k) g = misfit l c g.
Proof. unfold misfit. rewrite map_map. f_equal. apply map_ext. intros q. cbn [fst snd]. unfold affine. ring. Qed.
Lemma best_fit_shift dim l k c g : best_fit dim l c g -> best_fit dim (map (fun q => (fst q, (snd q + k)%R)) l) (c + k) g.
Proof.
  intros (G & M & U). split; [exact G|]. split.
  - intros c' g' G'. replace c' with ((c' - k) + k)%R by ring. rewrite !misfit_shift. apply M. exact G'.
  - intros c' g' G' H. replace c' with ((c' - k) + k)%R in H by ring. rewrite !misfit_shift in H. destruct (U (c' - k)%R g' G' H) as (A & B). split; [lra | exact B].
Qed.
(** data of an affine function: the fit is this function *)
Lemma fit_affine dim a k l c s : gradient dim k -> (forall q, In q l -> snd q = affine a k (fst q)) -> best_fit dim l c s -> c = a /\ s = k.
Proof.
  intros GK H (_ & _ & U). destruct (U a k GK) as (A & B); [|split; symmetry; assumption]. unfold misfit. rewrite (rsum_map_zero _ l); [|intros q Hq; rewrite (H q Hq); ring]. apply rsum_map_nonneg. intros q _. apply Rle_0_sqr.
Qed.

Section Mesh8.
Context (dim : Z) (cells : list (list Z)) (nodes : list pt) (labels : list Z) (bc : list (loc * bctype)) (vs : list (loc * bcval)).
Hypothesis VM : valid_mesh dim cells nodes labels.
Notation node_value := (node_value dim cells nodes labels bc vs).
Notation node_values := (node_values dim cells nodes labels bc vs).
Notation slope_between := (slope_between dim cells nodes).
Notation gradient_flux := (gradient_flux dim cells nodes labels bc vs).
Notation laplacian := (laplacian dim cells nodes labels bc vs).
Notation ctr := (centre dim cells nodes).

Lemma node_values_unique X X' N N' c g : (forall d, iscell cells d -> X d = X' d) -> node_values X N -> node_values X' N' -> iscell cells c -> In g (cell cells c) -> N g = N' g.
Proof.
  intros HX HN HN' Hc Hg. specialize (HN c g Hc Hg). specialize (HN' c g Hc Hg). unfold Spec_poisson.node_value in *. destruct (node_fixed nodes labels bc vs g); [congruence|]. apply (nodal_same dim cells nodes labels [] [] VM X X' HX) in HN. exact (nodal_unique _ _ _ _ _ _ _ _ _ _ HN HN').
Qed.
Lemma slope_facet X N c d F s : beside cells c F = Some d -> slope_between X N c d F s <-> facet_slope dim cells nodes labels bc vs X N c F s.
Proof. intros E. unfold Spec_poisson.slope_between, facet_slope, point_beyond, value_beyond. rewrite E. reflexivity. Qed.
Lemma beside_cell c F d : beside cells c F = Some d -> iscell cells d.
Proof. intros E. unfold beside in E. apply find_some in E as (E & _). apply in_range in E. exact E. Qed.
Lemma flux_unique X X' N N' c F q q' : (forall d, iscell cells d -> X d = X' d) -> (forall g, In g (cell cells c) -> N g = N' g) -> has_facet dim cells c F -> gradient_flux X N c F q -> gradient_flux X' N' c F q' -> q = q'.
Proof.
  intros HX HN HF. unfold Spec_poisson.gradient_flux. pose proof (proj1 HF) as Hc. destruct (beside cells c F) as [d|] eqn:EB.
  - intros (s & HS & ->) (s' & HS' & ->). f_equal. apply (facet_slope_unique dim cells nodes labels bc vs VM X' N' c F s s' HF); [|apply (slope_facet _ _ _ d); [exact EB | exact HS']]. apply (slope_facet _ _ _ d); [exact EB|]. destruct HS as (G & T & A). split; [exact G|]. split.
    + assert (II : incl F (cell cells c)) by (apply HF). intros a b Ha Hb. rewrite <- !HN by (apply II; assumption). apply T; assumption.
    + rewrite A. rewrite (HX d (beside_cell _ _ _ EB)), (HX c Hc). reflexivity.
  - rewrite (HX c Hc). destruct (facet_fixed dim nodes labels bc vs F); congruence.
Qed.
Lemma in_facets c F : iscell cells c -> In F (facets (cell cells c)) -> has_facet dim cells c F.
Proof. intros Hc HF. apply (facets_iff dim cells nodes (vm_mesh _ _ _ _ VM) c F Hc). exact HF. Qed.
Lemma laplacian_unique X X' c y y' : (forall d, iscell cells d -> X d = X' d) -> iscell cells c -> laplacian X c y -> laplacian X' c y' -> y = y'.
Proof.
  intros HX Hc (N & Q & HN & HQ & ->) (N' & Q' & HN' & HQ' & ->). do 2 f_equal. apply map_ext_in. intros F HF. apply (flux_unique X X' N N' c F); auto; [|exact (in_facets c F Hc HF)]. intros g Hg. exact (node_values_unique X X' N N' c g HX HN HN' Hc Hg).
Qed.
Lemma laplacian_same X X' c y : (forall d, iscell cells d -> X d = X' d) -> iscell cells c -> laplacian X c y -> laplacian X' c y.
Proof.
  intros HX Hc (N & Q & HN & HQ & E). exists N, Q. split; [|split; [|exact E]].
  - intros d g Hd Hg. specialize (HN d g Hd Hg). unfold Spec_poisson.node_value in *. destruct (node_fixed nodes labels bc vs g); [exact HN|]. exact (nodal_same dim cells nodes labels [] [] VM X X' HX g _ HN).
  - intros F HF. specialize (HQ F HF). unfold Spec_poisson.gradient_flux in *. destruct (beside cells c F) as [d|] eqn:EB; [|rewrite <- (HX c Hc); exact HQ]. destruct HQ as (s & (S1 & S2 & S3) & Eq). exists s. split; [|exact Eq]. split; [exact S1|]. split; [exact S2|]. rewrite <- (HX c Hc), <- (HX d (beside_cell _ _ _ EB)). exact S3.
Qed.
(** what leaves a cell enters its neighbour *)
Lemma flux_opposite X N c d F q q' : has_facet dim cells c F -> beside cells c F = Some d -> gradient_flux X N c F q -> gradient_flux X N d F q' -> q' = (- q)%R.
Proof.
  intros HF EB. destruct (beside_swap dim cells nodes labels VM c d F HF EB) as (Hd & NE & E'). unfold Spec_poisson.gradient_flux. rewrite EB, E'. intros (s & HS & ->) (s' & HS' & ->).
  apply (slope_facet _ _ _ _ _ _ EB) in HS. apply (slope_facet _ _ _ _ _ _ E') in HS'. apply (facet_slope_swap dim cells nodes labels bc vs VM X N c d F s HF EB) in HS. rewrite <- (facet_slope_unique dim cells nodes labels bc vs VM X N d F s s' Hd HS HS').
  rewrite (outward_two dim cells nodes (vm_mesh _ _ _ _ VM) (vm_nonflat _ _ _ _ VM) (vm_proper _ _ _ _ VM) c d F HF Hd NE). unfold vdot, vscal. cbn [px py pz]. ring.
Qed.
(** conservation: the sources balance the fluxes through the boundary *)
Lemma flux_balance X N (Q : Z -> list Z -> R) : (forall c F, iscell cells c -> In F (facets (cell cells c)) -> gradient_flux X N c F (Q c F)) ->
  rsum (map (fun c => rsum (map (Q c) (facets (cell cells c)))) (range (zlen cells))) = rsum (map (fun p => Q (fst p) (snd p)) (boundary_facets cells)).
Proof.
  intros HQ. set (fl := fun p => Q (fst p) (snd p)).
  assert (IZ : rsum (map fl (inner_facets cells)) = 0%R).
  { apply (involution_sum _ (fun p => (match beside cells (fst p) (snd p) with Some d => d | None => 0 end, snd p))); [exact (inner_NoDup dim cells nodes labels VM)|]. intros (c, F) HI. apply (in_inner dim cells nodes labels VM) in HI as (HF & d & EB). unfold fl. cbn [fst snd]. rewrite EB. destruct (beside_swap dim cells nodes labels VM c d F HF EB) as (Hd & NE & E').
    split; [apply (in_inner dim cells nodes labels VM); split; [exact Hd | exists c; exact E']|]. rewrite E'. split; [reflexivity|]. apply (flux_opposite X N c d F _ _ HF EB); apply HQ; try (apply (facets_iff dim cells nodes (vm_mesh _ _ _ _ VM)); [|assumption]); first [exact (proj1 HF) | exact (proj1 Hd)]. }
  rewrite <- (Rplus_0_r (rsum (map fl (boundary_facets cells)))), <- IZ. unfold inner_facets, boundary_facets. clear IZ HQ. induction (range (zlen cells)) as [|c l IH]; cbn [map flat_map]; [cbn; ring|]. rewrite rsum_cons, IH, !map_app, !rsum_app. set (a := rsum (map _ (flat_map _ l))). set (b := rsum (map _ (flat_map _ l))).
  rewrite !map_map. unfold fl at 1 2. cbn [fst snd]. rewrite !rsum_filter.
  replace (rsum (map (Q c) (facets (cell cells c)))) with (rsum (map (fun x => if match beside cells c x with Some _ => false | None => true end then Q c x else 0%R) (facets (cell cells c))) + rsum (map (fun x => if match beside cells c x with Some _ => true | None => false end then Q c x else 0%R) (facets (cell cells c))))%R; [ring|].
  rewrite <- rsum_map_add. apply rsum_map_ext. intros F _. destruct (beside cells c F); ring.
Qed.
Lemma poisson_balance f X : (forall c, iscell cells c -> (0 < measure_of cells nodes c)%R) -> poisson dim cells nodes labels bc vs f X ->
  rsum (map (fun c => measure_of cells nodes c * f c)%R (range (zlen cells))) = rsum (map (fun p => dirichlet_flux dim cells nodes labels bc vs X (fst p) (snd p)) (boundary_facets cells)).
Proof.
  intros MP HP.
  assert (NV : range (zlen cells) = [] \/ exists N, node_values X N). { destruct (range (zlen cells)) as [|c q] eqn:E; [left; reflexivity|]. right. destruct (HP c) as (N & _ & HN & _); [apply in_range; rewrite E; left; reflexivity | exists N; exact HN]. }
  destruct NV as [NV|(N & HN)]; [unfold boundary_facets; rewrite NV; reflexivity|].
  assert (HQ : forall c, exists Qc : list Z -> R, iscell cells c -> (forall F, In F (facets (cell cells c)) -> gradient_flux X N c F (Qc F)) /\ (f c = / measure_of cells nodes c * rsum (map Qc (facets (cell cells c))))%R).
  { intros c. destruct (Z.le_gt_cases 0 c) as [H0|H0]; [|exists (fun _ => 0%R); intros Hc; unfold iscell in Hc; lia]. destruct (Z.lt_ge_cases c (zlen cells)) as [H1|H1]; [|exists (fun _ => 0%R); intros Hc; unfold iscell in Hc; lia]. assert (Hc : iscell cells c) by (split; assumption).
    destruct (HP c Hc) as (N' & Q & HN' & HQ & E). exists Q. intros _. split; [|exact E]. intros F HF. specialize (HQ F HF). unfold Spec_poisson.gradient_flux in *. destruct (beside cells c F) as [d|] eqn:EB; [|exact HQ]. destruct HQ as (s & (S1 & S2 & S3) & Eq). exists s. split; [|exact Eq]. split; [exact S1|]. split; [|exact S3].
    assert (II : incl F (cell cells c)) by (apply (in_facets c F Hc HF)). intros a b Ha Hb. rewrite (node_values_unique X X N N' c a), (node_values_unique X X N N' c b) by (auto). apply S2; assumption. }
  destruct (finite_choice (fun _ : list Z => 0%R) (zlen cells) (fun c Qc => (forall F, In F (facets (cell cells c)) -> gradient_flux X N c F (Qc F)) /\ (f c = / measure_of cells nodes c * rsum (map Qc (facets (cell cells c))))%R) (zlen_nonneg _)) as (Q & HQ'); [intros c Hc; destruct (HQ c) as (Qc & H); exists Qc; apply H; exact Hc|].
  transitivity (rsum (map (fun c => rsum (map (Q c) (facets (cell cells c)))) (range (zlen cells)))).
  { apply rsum_map_ext. intros c Hc. apply in_range in Hc. rewrite (proj2 (HQ' c Hc)). field. apply Rgt_not_eq, MP. exact Hc. }
  rewrite (flux_balance X N Q) by (intros c F Hc; apply (HQ' c Hc)). apply rsum_map_ext. intros (c, F) HI. unfold boundary_facets in HI. apply in_flat_map in HI as (c' & Hc & HI). apply in_range in Hc. apply in_map_iff in HI as (F' & E & HF). injection E as -> ->. apply filter_In in HF as (HF & EB). cbn [fst snd].
  pose proof (proj1 (HQ' c Hc) F HF) as G. unfold Spec_poisson.gradient_flux in G. destruct (beside cells c F); [discriminate EB|]. unfold dirichlet_flux. destruct (facet_fixed dim nodes labels bc vs F); exact G.
Qed.
(** constant fields *)
Lemma laplacian_constant k X c : (forall g y, node_fixed nodes labels bc vs g = Some y -> y = k) -> (forall F y, facet_fixed dim nodes labels bc vs F = Some y -> y = k) ->
  (forall d, iscell cells d -> X d = k) -> iscell cells c -> forall y, laplacian X c y -> y = 0%R.
Proof.
  intros K1 K2 HX Hc y (N & Q & HN & HQ & ->).
  assert (NK : forall g, In g (cell cells c) -> N g = k). { intros g Hg. specialize (HN c g Hc Hg). unfold Spec_poisson.node_value in HN. destruct (node_fixed nodes labels bc vs g) eqn:EF; [rewrite HN; exact (K1 g _ EF)|]. destruct HN as (c0 & s & B & ->).
    destruct (fun H => fit_constant dim k _ c0 s H B) as (-> & ->); [|unfold affine; rewrite vdot_zero_l; ring]. intros q Hq. unfold around_node in Hq. apply in_app_or in Hq as [Hq|Hq]; apply in_map_iff in Hq as (p & <- & Hp).
    - cbn [sample snd]. apply HX. unfold touching in Hp. apply filter_In in Hp as (Hp & _). apply in_range in Hp. exact Hp.
    - cbn [mirrored snd boundary_value find]. apply HX. unfold boundary_at in Hp. apply filter_In in Hp as (Hp & _). unfold boundary_facets in Hp. apply in_flat_map in Hp as (c' & Hc' & Hp). apply in_map_iff in Hp as (F' & <- & _). apply in_range in Hc'. exact Hc'. }
  rewrite (rsum_map_zero Q); [ring|]. intros F HF. specialize (HQ F HF). pose proof (in_facets c F Hc HF) as HFc. unfold Spec_poisson.gradient_flux in HQ. destruct (beside cells c F) as [d|] eqn:EB.
  - destruct HQ as (s & HS & ->). apply (slope_facet _ _ _ _ _ _ EB) in HS. assert (ES : s = vzero); [|rewrite ES; apply vdot_zero_l]. apply (facet_slope_unique dim cells nodes labels bc vs VM X N c F s vzero HFc HS). apply (slope_facet _ _ _ d _ _ EB). assert (II : incl F (cell cells c)) by (apply HFc).
    split; [intros _; reflexivity|]. split; [intros a b Ha Hb; rewrite vdot_zero_l, !NK by (apply II; assumption); ring | rewrite vdot_zero_l, (HX d (beside_cell _ _ _ EB)), (HX c Hc); ring].
  - destruct (facet_fixed dim nodes labels bc vs F) as [z|] eqn:EF; [|exact HQ]. rewrite HQ, (K2 F z EF), (HX c Hc). unfold Rdiv. ring.
Qed.
(** affine fields, away from the boundary or with exact values at the nodes *)
Lemma laplacian_affine a0 k X c : gradient dim k -> (forall d, iscell cells d -> X d = affine a0 k (ctr d)) -> rsum (map (fun F => vdot k (outward cells nodes c F)) (facets (cell cells c))) = 0%R -> iscell cells c ->
  (forall F, In F (facets (cell cells c)) -> beside cells c F <> None) ->
  (forall g, In g (cell cells c) -> match node_fixed nodes labels bc vs g with Some y => y = affine a0 k (at_node nodes g) | None => boundary_at cells g = [] end) ->
  forall y, laplacian X c y -> y = 0%R.
Proof.
  intros GK HX CL Hc HI HG y (N & Q & HN & HQ & ->).
  assert (NK : forall g, In g (cell cells c) -> N g = affine a0 k (at_node nodes g)). { intros g Hg. specialize (HN c g Hc Hg). specialize (HG g Hg). unfold Spec_poisson.node_value in HN. destruct (node_fixed nodes labels bc vs g) eqn:EF; [rewrite HN; exact HG|]. destruct HN as (c0 & s & B & ->).
    destruct (fun H => fit_affine dim a0 k _ c0 s GK H B) as (-> & ->); [|reflexivity]. intros q Hq. unfold around_node in Hq. rewrite HG in Hq. cbn [map] in Hq. rewrite app_nil_r in Hq. apply in_map_iff in Hq as (p & <- & Hp).
    cbn [sample snd fst]. apply HX. unfold touching in Hp. apply filter_In in Hp as (Hp & _). apply in_range in Hp. exact Hp. }
  replace (rsum (map Q (facets (cell cells c)))) with 0%R; [ring|]. rewrite <- CL. apply rsum_map_ext. intros F HF. specialize (HQ F HF). specialize (HI F HF). pose proof (in_facets c F Hc HF) as HFc. unfold Spec_poisson.gradient_flux in HQ. destruct (beside cells c F) as [d|] eqn:EB; [|congruence].
  destruct HQ as (s & HS & ->). apply (slope_facet _ _ _ _ _ _ EB) in HS. f_equal. symmetry. apply (facet_slope_unique dim cells nodes labels bc vs VM X N c F s k HFc HS). apply (slope_facet _ _ _ d _ _ EB). assert (II : incl F (cell cells c)) by (apply HFc).
  split; [exact GK|]. split; [intros a b Ha Hb; rewrite !NK by (apply II; assumption); unfold affine, vdot, vsub; cbn [px py pz]; ring | rewrite (HX d (beside_cell _ _ _ EB)), (HX c Hc); unfold affine, vdot, vsub; cbn [px py pz]; ring].
Qed.
(** without dirichlet sides nothing determines the level *)
Lemma laplacian_shift k X c y : (forall g, node_fixed nodes labels bc vs g = None) -> (forall F, facet_fixed dim nodes labels bc vs F = None) -> laplacian X c y -> laplacian (fun d => X d + k)%R c y.
Proof.
  intros K1 K2 (N & Q & HN & HQ & E). exists (fun g => N g + k)%R, Q. split; [|split; [|exact E]].
  - intros d g Hd Hg. specialize (HN d g Hd Hg). unfold Spec_poisson.node_value in *. rewrite K1 in *. destruct HN as (c0 & s & B & ->). exists (c0 + k)%R, s. split; [|unfold affine; ring]. apply (best_fit_shift _ _ k) in B. unfold around_node in *. rewrite map_app, !map_map in B. exact B.
  - intros F HF. specialize (HQ F HF). unfold Spec_poisson.gradient_flux in *. rewrite K2 in *. destruct (beside cells c F) as [d|] eqn:EB; [|exact HQ]. destruct HQ as (s & (S1 & S2 & S3) & Eq). exists s. split; [|exact Eq]. split; [exact S1|]. split; [intros a b Ha Hb; rewrite (S2 a b Ha Hb); ring | rewrite S3; ring].
Qed.
End Mesh8.
