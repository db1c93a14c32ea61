(** * Proofs_run15: the scheme determines its result; constants and conservation. *)
From Coq Require Import Reals Lra Nsatz Permutation Sorted.
From Verif Require Import Py PyLemmas Model_part Spec_part Model_label Model_conn Spec_conn Proofs_conn1 Proofs_conn2 Model_geom Spec_geom Proofs_geom1 Proofs_geom2 Proofs_geom3
  Model_halo Spec_halo Model_interp Spec_interp Spec_lsq Proofs_lsq Model_fvm Spec_fvm Proofs_fvm1 Proofs_fvm2 Model_bc Spec_bc Model_domain Spec_domain Proofs_domain1 Proofs_domain4
  Spec_parallel Proofs_parallel1 Properties_parallel Spec_run Proofs_run1 Proofs_run3 Proofs_run6 Spec_run2 Proofs_run7 Proofs_run13.
Open Scope Z_scope.

Lemma vdot_comm a b : vdot a b = vdot b a. Proof. unfold vdot. ring. Qed.
Lemma vdot_sub a b c : vdot a (vsub b c) = (vdot a b - vdot a c)%R. Proof. unfold vdot, vsub. cbn [px py pz]. ring. Qed.
Lemma vdot_subl a b c : vdot (vsub a b) c = (vdot a c - vdot b c)%R. Proof. unfold vdot, vsub. cbn [px py pz]. ring. Qed.
Lemma vdot_scal k a b : vdot (vscal k a) b = (k * vdot a b)%R. Proof. unfold vdot, vscal. cbn [px py pz]. ring. Qed.
Lemma vdot_zero_l a : vdot vzero a = 0%R. Proof. unfold vdot, vzero. cbn [px py pz]. ring. Qed.
Lemma vscal_zero k a : k <> 0%R -> vscal k a = vzero -> a = vzero.
Proof.
  destruct a as [a1 a2 a3]. unfold vscal, vzero. cbn [px py pz]. intros N E. injection E as E1 E2 E3. destruct (Rmult_integral _ _ E1); [contradiction|]. destruct (Rmult_integral _ _ E2); [contradiction|]. destruct (Rmult_integral _ _ E3); [contradiction|]. subst. reflexivity.
Qed.
Lemma vsub_zero a b : vsub a b = vzero -> a = b.
Proof. destruct a as [a1 a2 a3], b as [b1 b2 b3]. unfold vsub, vzero. cbn [px py pz]. intros E. injection E as E1 E2 E3. f_equal; lra. Qed.

Section Mesh15.
Context (dim : Z) (cells : list (list Z)) (nodes : list pt) (labels : list Z) (bc : list (loc * bctype)) (vs : list (loc * bcval)).
Hypothesis VM : valid_mesh dim cells nodes labels.
Notation WF := (vm_mesh _ _ _ _ VM).
Notation NF := (vm_nonflat _ _ _ _ VM).
Notation PR := (vm_proper _ _ _ _ VM).
Notation value_beyond := (value_beyond dim cells nodes labels bc vs).
Notation facet_slope := (facet_slope dim cells nodes labels bc vs).
Notation reconstruction := (reconstruction dim cells nodes labels bc vs).
Notation full_step := (full_step dim cells nodes labels bc vs).
Notation full_steps := (full_steps dim cells nodes labels bc vs).
Notation carried := (carried dim cells nodes labels bc vs).
Notation entering := (entering dim cells nodes labels bc vs).

(** a slope perpendicular to the facet is a multiple of its area vector *)
Lemma perpendicular c F s : has_facet dim cells c F -> gradient dim s -> (forall a b, In a F -> In b F -> vdot s (vsub (at_node nodes b) (at_node nodes a)) = 0%R) ->
  let n := area_vector nodes F in vscal (vdot n n) s = vscal (vdot n s) n.
Proof.
  intros HF G H n. assert (LF : zlen F = dim) by (apply HF). unfold n. destruct (wm_dim _ _ _ WF) as [E|E]; rewrite E in LF.
  - specialize (G E). destruct (list2 F LF) as (a & b & ->). specialize (H a b ltac:(cbn; auto) ltac:(cbn; auto)). unfold area_vector. cbn [map]. destruct (at_node nodes a) as [a1 a2 a3], (at_node nodes b) as [b1 b2 b3], s as [s1 s2 s3]. unfold vdot, vsub, vscal in *. cbn [px py pz] in *. subst s3. clear - H. f_equal; nsatz.
  - destruct (list3 F LF) as (a & b & d & ->). pose proof (H a b ltac:(cbn; auto) ltac:(cbn; auto)) as H1. pose proof (H a d ltac:(cbn; auto) ltac:(cbn; auto)) as H2. clear H. unfold area_vector. cbn [map]. cbv zeta.
    set (u := vsub (at_node nodes b) (at_node nodes a)) in *. set (w := vsub (at_node nodes d) (at_node nodes a)) in *. clearbody u w. destruct u as [u1 u2 u3], w as [w1 w2 w3], s as [s1 s2 s3]. unfold vdot, vscal in *. cbn [px py pz] in *. clear - H1 H2. f_equal; nsatz.
Qed.
(** the centre of a cell lies inside *)
Lemma centre_inside c F p : has_facet dim cells c F -> In p F -> (vdot (outward cells nodes c F) (vsub (centre dim cells nodes c) (at_node nodes p)) < 0)%R.
Proof.
  intros HF Hp. pose proof (wm_dim _ _ _ WF) as Hd. assert (LF : zlen F = 2 \/ zlen F = 3) by (assert (zlen F = dim) by (apply HF); lia). destruct (outward_ok dim cells nodes WF NF c F HF) as (A & B). destruct (opposite_node dim cells nodes WF c F HF) as (x & _ & Hx & Nx). specialize (B x p Hx Nx Hp).
  destruct (centre_same_side dim cells nodes WF NF c F x HF Hx Nx) as (k & Hk & E & _). fold (centre dim cells nodes c) in E. destruct (side_area nodes F (centre dim cells nodes c) p LF Hp) as (k1 & Hk1 & E1). destruct (side_area nodes F (at_node nodes x) p LF Hp) as (k2 & Hk2 & E2). rewrite E1, E2 in E.
  set (v := area_vector nodes F) in *. set (y := vsub (centre dim cells nodes c) _) in *. set (z := vsub (at_node nodes x) _) in *.
  assert (E' : exists m, (0 < m)%R /\ vdot v y = (m * vdot v z)%R). { exists (k * k2 / k1)%R. split; [apply Rmult_lt_0_compat; [apply Rmult_lt_0_compat; assumption | apply Rinv_0_lt_compat; assumption]|]. apply (Rmult_eq_reg_l k1); [|lra]. rewrite E. field. lra. }
  destruct E' as (m & Hm & E'). destruct A as [A|A]; rewrite A in *; rewrite ?vdot_scal in *; rewrite E'.
  - assert (0 < m * - vdot v z)%R by (apply Rmult_lt_0_compat; lra). lra.
  - assert (0 < m * vdot v z)%R by (apply Rmult_lt_0_compat; lra). lra.
Qed.
Lemma area_outward c F : has_facet dim cells c F -> exists e, (e = 1 \/ e = -1)%R /\ area_vector nodes F = vscal e (outward cells nodes c F).
Proof.
  intros HF. destruct (outward_ok dim cells nodes WF NF c F HF) as ([A|A] & _); rewrite A; [exists 1%R | exists (-1)%R]; (split; [auto|]); destruct (area_vector nodes F) as [x y z]; unfold vscal; cbn [px py pz]; f_equal; ring.
Qed.
Lemma facet_node c F : has_facet dim cells c F -> In (hd 0 F) F.
Proof. intros HF. assert (LF : zlen F = dim) by (apply HF). pose proof (wm_dim _ _ _ WF). destruct F; [unfold zlen in LF; cbn in LF; lia | left; reflexivity]. Qed.
(** ... and the point beyond the facet outside *)
Lemma point_outside c F : has_facet dim cells c F -> (0 < vdot (outward cells nodes c F) (vsub (point_beyond dim cells nodes c F) (centre dim cells nodes c)))%R.
Proof.
  intros HF. pose proof (facet_node c F HF) as Hp. pose proof (centre_inside c F _ HF Hp) as CI. unfold point_beyond. destruct (beside cells c F) as [d|] eqn:E.
  - apply (beside_spec dim cells nodes WF PR c F d HF) in E as (Hd & N). pose proof (centre_inside d F _ Hd Hp) as CI'. rewrite (outward_two dim cells nodes WF NF PR c d F HF Hd (not_eq_sym N)), vdot_scal in CI'. rewrite !vdot_sub in *. lra.
  - unfold reflection. cbv zeta. pose proof (area_nonzero dim cells nodes labels VM c F HF) as AN. destruct (area_outward c F HF) as (e & He & EA). rewrite EA in *. set (w := outward cells nodes c F) in *. set (x := centre dim cells nodes c) in *. set (p := at_node nodes (hd 0 F)) in *.
    assert (EE : (e * e = 1)%R) by (destruct He as [-> | ->]; ring).
    assert (ES : vdot (vscal e w) (vscal e w) = vdot w w) by (rewrite vdot_scal, vdot_comm, vdot_scal, <- Rmult_assoc, EE; ring). rewrite ES in *.
    rewrite (vdot_scal e w (vsub x p)). set (t := vdot w (vsub x p)) in *. replace (vdot w (vsub (vsub x (vscal (2 * (e * t) / vdot w w) (vscal e w))) x)) with (- 2 * (e * e) * t)%R; [rewrite EE; lra|].
    rewrite !vdot_sub. rewrite (vdot_comm w (vscal _ (vscal e w))), !vdot_scal. field. exact AN.
Qed.
Lemma facet_slope_unique X N c F s s' : has_facet dim cells c F -> facet_slope X N c F s -> facet_slope X N c F s' -> s = s'.
Proof.
  intros HF (G & A & B) (G' & A' & B'). apply vsub_zero. set (d := vsub s s').
  assert (GD : gradient dim d) by (intros E; unfold d, vsub; cbn [pz]; rewrite (G E), (G' E); ring).
  assert (AD : forall a b, In a F -> In b F -> vdot d (vsub (at_node nodes b) (at_node nodes a)) = 0%R) by (intros a b Ha Hb; unfold d; rewrite vdot_subl, A, A' by assumption; ring).
  assert (BD : vdot d (vsub (point_beyond dim cells nodes c F) (centre dim cells nodes c)) = 0%R) by (unfold d; rewrite vdot_subl, B, B'; ring).
  pose proof (perpendicular c F d HF GD AD) as PE. cbv zeta in PE. pose proof (area_nonzero dim cells nodes labels VM c F HF) as AN. pose proof (point_outside c F HF) as PO. set (e := vsub (point_beyond _ _ _ _ _) _) in *. set (n := area_vector nodes F) in *.
  assert (NE : vdot n e <> 0%R). { destruct (area_outward c F HF) as (k & Hk & EA). fold n in EA. rewrite EA, vdot_scal. destruct Hk as [-> | ->]; lra. }
  assert (ND : vdot n d = 0%R). { assert (E : (vdot n d * vdot n e = 0)%R) by (rewrite <- vdot_scal, <- PE, vdot_scal, BD; ring). destruct (Rmult_integral _ _ E); [assumption | contradiction]. }
  apply (vscal_zero (vdot n n)); [exact AN|]. rewrite PE, ND. unfold vscal, vzero. f_equal; ring.
Qed.
Lemma beside_swap c d F : has_facet dim cells c F -> beside cells c F = Some d -> has_facet dim cells d F /\ c <> d /\ beside cells d F = Some c.
Proof.
  intros HF E. apply (beside_spec dim cells nodes WF PR c F d HF) in E as (Hd & N). split; [exact Hd|]. split; [congruence|]. apply (beside_spec dim cells nodes WF PR d F c Hd). split; [exact HF | congruence].
Qed.
Lemma facet_slope_swap X N c d F s : has_facet dim cells c F -> beside cells c F = Some d -> facet_slope X N c F s -> facet_slope X N d F s.
Proof.
  intros HF E (G & A & B). destruct (beside_swap c d F HF E) as (Hd & _ & E'). split; [exact G|]. split; [exact A|]. unfold point_beyond, Spec_run.value_beyond in *. rewrite E in B. rewrite E'. rewrite vdot_sub in *. lra.
Qed.

(** everything depends on the values of the cells only *)
Section Same.
Context (X X' : Z -> R).
Hypothesis EX : forall c, iscell cells c -> X c = X' c.
Lemma beyond_same c F : iscell cells c -> value_beyond X c F = value_beyond X' c F.
Proof. intros Hc. unfold Spec_run.value_beyond. destruct (beside cells c F) as [d|] eqn:E; [|rewrite (EX c Hc); reflexivity]. apply EX. unfold beside in E. apply find_some in E as (E & _). apply in_range in E. exact E. Qed.
Lemma mirrored_same k : map (mirrored dim cells nodes labels bc vs X) (boundary_at cells k) = map (mirrored dim cells nodes labels bc vs X') (boundary_at cells k).
Proof. apply map_ext_in. intros (c, F) H. apply (in_boundary_at dim cells nodes labels VM) in H as (H & _). unfold mirrored. cbn [fst snd]. rewrite (EX c (proj1 (proj1 H))). reflexivity. Qed.
Lemma around_node_same g : around_node dim cells nodes labels bc vs X g = around_node dim cells nodes labels bc vs X' g.
Proof. unfold around_node. rewrite mirrored_same. f_equal. apply map_ext_in. intros c Hc. apply in_touching in Hc as (Hc & _). unfold sample. rewrite (EX c Hc). reflexivity. Qed.
Lemma around_cell_same c : around_cell dim cells nodes labels bc vs X c = around_cell dim cells nodes labels bc vs X' c.
Proof.
  unfold around_cell. f_equal.
  - apply map_ext_in. intros d Hd. apply in_neighbours in Hd as (Hd & _). unfold sample. rewrite (EX d Hd). reflexivity.
  - rewrite !flat_map_concat_map. f_equal. apply map_ext. intros k. apply mirrored_same.
Qed.
Lemma nodal_same g v : nodal_value dim cells nodes labels bc vs X g v -> nodal_value dim cells nodes labels bc vs X' g v.
Proof. unfold nodal_value. rewrite around_node_same. tauto. Qed.
Lemma slope_same c s : iscell cells c -> cell_slope dim cells nodes labels bc vs X c s -> cell_slope dim cells nodes labels bc vs X' c s.
Proof. intros Hc. unfold cell_slope. rewrite around_cell_same, (EX c Hc). tauto. Qed.
Lemma seen_same c y : iscell cells c -> seen_from dim cells nodes labels bc vs X c y -> seen_from dim cells nodes labels bc vs X' c y.
Proof. intros Hc [->|(F & HF & ->)]; [left; apply EX, Hc | right; exists F; split; [exact HF | apply beyond_same, Hc]]. Qed.
Lemma admissible_same s c p : iscell cells c -> admissible dim cells nodes labels bc vs X s c p -> admissible dim cells nodes labels bc vs X' s c p.
Proof.
  intros Hc (A & B). split; [exact A|]. intros F HF T. destruct (B F HF T) as (lo & hi & L & H & I). exists lo, hi. split; [apply seen_same; assumption|]. split; [apply seen_same; assumption|]. rewrite <- (EX c Hc). exact I.
Qed.
Lemma facet_same N N' c F s : has_facet dim cells c F -> (forall g, In g (cell cells c) -> N g = N' g) -> facet_slope X N c F s -> facet_slope X' N' c F s.
Proof.
  intros HF EN (G & A & B). split; [exact G|]. assert (I : forall g, In g F -> In g (cell cells c)) by apply HF. split; [intros a b Ha Hb; rewrite <- !EN by auto; apply A; assumption|]. rewrite <- (beyond_same c F (proj1 HF)), <- (EX c (proj1 HF)). exact B.
Qed.
End Same.
Lemma limiter_same X X' s c p : (forall c, iscell cells c -> X c = X' c) -> iscell cells c -> limiter dim cells nodes labels bc vs X s c p -> limiter dim cells nodes labels bc vs X' s c p.
Proof. intros EX Hc (A & B). split; [apply (admissible_same X X' EX); assumption|]. intros p' H. apply B. apply (admissible_same X' X); [intros d Hd; symmetry; apply EX, Hd | exact Hc | exact H]. Qed.
Lemma limiter_unique X s c p p' : limiter dim cells nodes labels bc vs X s c p -> limiter dim cells nodes labels bc vs X s c p' -> p = p'.
Proof. intros (A & B) (A' & B'). apply Rle_antisym; [apply B'; exact A | apply B; exact A']. Qed.

Lemma reconstruction_unique X X' S P N G S' P' N' G' : (forall c, iscell cells c -> X c = X' c) -> reconstruction X S P N G -> reconstruction X' S' P' N' G' ->
  (forall c, iscell cells c -> S c = S' c /\ P c = P' c) /\ (forall c g, iscell cells c -> In g (cell cells c) -> N g = N' g) /\ (forall c F, iscell cells c -> In F (facets (cell cells c)) -> G c F = G' c F).
Proof.
  intros EX (A1 & A2 & A3) (B1 & B2 & B3).
  assert (E1 : forall c, iscell cells c -> S c = S' c /\ P c = P' c).
  { intros c Hc. destruct (A1 c Hc) as (a & b). destruct (B1 c Hc) as (a' & b'). assert (ES : S c = S' c) by (symmetry; apply (best_slope_unique _ _ _ _ _ _ (slope_same X X' EX c _ Hc a) a')). split; [exact ES|]. rewrite ES in b. exact (limiter_unique _ _ _ _ _ (limiter_same X X' _ c _ EX Hc b) b'). }
  assert (E2 : forall c g, iscell cells c -> In g (cell cells c) -> N g = N' g) by (intros c g Hc Hg; exact (nodal_unique _ _ _ _ _ _ _ _ _ _ (nodal_same X X' EX g _ (A2 c g Hc Hg)) (B2 c g Hc Hg))).
  split; [exact E1|]. split; [exact E2|]. intros c F Hc HF. pose proof (proj1 (facets_iff dim cells nodes WF c F Hc) HF) as HF'. apply (facet_slope_unique X' N' c F); [exact HF' | apply (facet_same X X' EX N N' c F); [exact HF' | intros g Hg; apply (E2 c g Hc Hg) | apply A3; assumption] | apply B3; assumption].
Qed.
Lemma entering_same order U K X X' S P G S' P' G' c F : (forall c, iscell cells c -> X c = X' c) -> (forall c, iscell cells c -> S c = S' c /\ P c = P' c) -> iscell cells c -> G c F = G' c F ->
  entering order U K X S P G c F = entering order U K X' S' P' G' c F.
Proof.
  intros EX ES Hc EG. unfold Spec_run2.entering. rewrite EG. f_equal. unfold Spec_run2.carried. cbv zeta. f_equal. unfold reconstructed. destruct (ES c Hc) as (-> & ->). rewrite (EX c Hc). destruct (Rle_dec 0 _); [reflexivity|].
  destruct (beside cells c F) as [d|] eqn:E; [|reflexivity]. unfold beside in E. apply find_some in E as (E & _). apply in_range in E. destruct (ES d E) as (-> & ->). rewrite (EX d E). reflexivity.
Qed.
(** a step has one result *)
Lemma full_step_unique order U K dt X X' Y Y' : (forall c, iscell cells c -> X c = X' c) -> full_step order U K dt X Y -> full_step order U K dt X' Y' -> forall c, iscell cells c -> Y c = Y' c.
Proof.
  intros EX (S & P & N & G & R & E) (S' & P' & N' & G' & R' & E') c Hc. destruct (reconstruction_unique _ _ _ _ _ _ _ _ _ _ EX R R') as (E1 & _ & E3). rewrite (E c Hc), (E' c Hc), (EX c Hc). do 3 f_equal. apply map_ext_in. intros F HF.
  apply entering_same; [exact EX | exact E1 | exact Hc | apply E3; assumption].
Qed.
Lemma full_steps_unique n order U K dt X Y Y' : full_steps n order U K dt X Y -> full_steps n order U K dt X Y' -> forall c, iscell cells c -> Y c = Y' c.
Proof.
  revert Y Y'. induction n as [|n IH]; intros Y Y'; cbn [Spec_run2.full_steps].
  - intros H H' c Hc. rewrite (H c Hc), (H' c Hc). reflexivity.
  - intros (Z1 & A & B) (Z2 & A' & B'). apply (full_step_unique order U K dt Z1 Z2); [exact (IH Z1 Z2 A A') | exact B | exact B'].
Qed.

(** the limiter: the reconstruction stays in the range of the values, up to the threshold *)
Lemma limiter_nonneg X s c p : limiter dim cells nodes labels bc vs X s c p -> (0 <= p <= 1)%R.
Proof.
  intros ((A & _) & B). split; [|exact A]. apply B. split; [lra|]. intros F HF _. exists (X c), (X c). split; [left; reflexivity|]. split; [left; reflexivity | lra].
Qed.
Lemma reconstructed_range X S P c F : limiter dim cells nodes labels bc vs X (S c) c (P c) -> In F (facets (cell cells c)) ->
  within_range dim cells nodes labels bc vs X c (reconstructed dim cells nodes 2 X S P c F) \/ (Rabs (reconstructed dim cells nodes 2 X S P c F - X c) < threshold dim)%R.
Proof.
  intros L HF. pose proof (limiter_nonneg _ _ _ _ L) as P01. destruct L as ((_ & A) & _). unfold reconstructed. change (IZR (2 - 1)) with 1%R. rewrite Rmult_1_l. destruct (Rle_dec (threshold dim) (Rabs (rise dim cells nodes (S c) c F))) as [T|T]; [left; apply A; assumption | right].
  replace (X c + P c * rise dim cells nodes (S c) c F - X c)%R with (P c * rise dim cells nodes (S c) c F)%R by ring. rewrite Rabs_mult, (Rabs_right (P c)) by lra. apply Rle_lt_trans with (Rabs (rise dim cells nodes (S c) c F)); [|lra]. rewrite <- (Rmult_1_l (Rabs _)) at 2. apply Rmult_le_compat_r; [apply Rabs_pos | lra].
Qed.

(** first order and no diffusion: the upwind scheme *)
Lemma full_step_upwind U dt X Y : full_step 1 U vzero dt X Y -> forall c, iscell cells c -> Y c = upwind_step dim cells nodes labels bc vs U dt X c.
Proof.
  intros (S & P & N & G & _ & E) c Hc. rewrite (E c Hc). unfold upwind_step, Rminus. rewrite Ropp_mult_distr_r, <- rsum_map_opp. do 3 f_equal. apply map_ext. intros F. unfold Spec_run2.entering, diffused, Spec_run2.carried, leaving, Spec_run.value_beyond, reconstructed. cbv zeta. change (1 - 1) with 0.
  replace (vdot (P3 (px vzero * px (G c F)) (py vzero * py (G c F)) (pz vzero * pz (G c F))) (outward cells nodes c F)) with 0%R by (unfold vdot, vzero; cbn [px py pz]; ring).
  destruct (Rle_dec 0 _); [ring|]. destruct (beside cells c F); ring.
Qed.

(** constant fields *)
Lemma rsum_sq_zero {A} (f : A -> R) l : (forall x, In x l -> f x = 0%R) -> rsum (map (fun x => f x * f x)%R l) = 0%R.
Proof. intros H. apply rsum_map_zero. intros x Hx. rewrite (H x Hx). ring. Qed.
Lemma slope_constant x w l s : (forall q, In q l -> snd q = w) -> best_slope dim x w l s -> s = vzero.
Proof.
  intros H (_ & _ & U). symmetry. apply U; [intros _; reflexivity|]. unfold misfit_from. rewrite (rsum_map_zero _ l); [|intros q Hq; cbv zeta; rewrite (H q Hq), vdot_zero_l; ring]. apply rsum_map_nonneg. intros q _. apply Rle_0_sqr.
Qed.
Lemma fit_constant w l c s : (forall q, In q l -> snd q = w) -> best_fit dim l c s -> c = w /\ s = vzero.
Proof.
  intros H (_ & _ & U). destruct (U w vzero) as (A & B); [intros _; reflexivity | | split; symmetry; assumption]. unfold misfit. rewrite (rsum_map_zero _ l); [|intros q Hq; unfold affine; rewrite (H q Hq), vdot_zero_l; ring]. apply rsum_map_nonneg. intros q _. apply Rle_0_sqr.
Qed.
Section Constant.
Context (k : R).
Hypothesis HD : dirichlet_within k k bc vs.
Lemma boundary_constant F : boundary_value dim nodes labels bc vs F k = k.
Proof. pose proof (boundary_within dim nodes labels bc vs k k HD F k ltac:(lra)). lra. Qed.
Lemma full_step_constant order U K dt X Y : (forall c, iscell cells c -> rsum (map (fun F => vdot U (outward cells nodes c F)) (facets (cell cells c))) = 0%R) ->
  (forall c, iscell cells c -> X c = k) -> full_step order U K dt X Y -> forall c, iscell cells c -> Y c = k.
Proof.
  intros CL HX (S & P & N & G & (A1 & A2 & A3) & E) c Hc. rewrite (E c Hc).
  assert (BK : forall c F, iscell cells c -> value_beyond X c F = k). { intros d F Hd. unfold Spec_run.value_beyond. destruct (beside cells d F) as [e|] eqn:EB; [|rewrite (HX d Hd); apply boundary_constant]. unfold beside in EB. apply find_some in EB as (EB & _). apply in_range in EB. apply HX, EB. }
  assert (MK : forall g q, In q (map (mirrored dim cells nodes labels bc vs X) (boundary_at cells g)) -> snd q = k). { intros g q Hq. apply in_map_iff in Hq as ((d, F) & <- & Hq). apply (in_boundary_at dim cells nodes labels VM) in Hq as (Hq & _). unfold mirrored. cbn [fst snd]. rewrite (HX d (proj1 (proj1 Hq))). apply boundary_constant. }
  assert (SZ : forall d, iscell cells d -> S d = vzero).
  { intros d Hd. destruct (A1 d Hd) as (B & _). unfold cell_slope in B. rewrite (HX d Hd) in B. refine (slope_constant _ _ _ _ _ B). intros q Hq. unfold around_cell in Hq. apply in_app_iff in Hq as [Hq|Hq].
    - apply in_map_iff in Hq as (e & <- & He). apply in_neighbours in He as (He & _). apply HX, He.
    - apply in_flat_map in Hq as (g & _ & Hq). exact (MK g q Hq). }
  assert (NK : forall g, In g (cell cells c) -> N g = k).
  { intros g Hg. destruct (A2 c g Hc Hg) as (c0 & s & B & ->). assert (HQ : forall q, In q (around_node dim cells nodes labels bc vs X g) -> snd q = k).
    { intros q Hq. unfold around_node in Hq. apply in_app_iff in Hq as [Hq|Hq]; [|exact (MK g q Hq)]. apply in_map_iff in Hq as (e & <- & He). apply in_touching in He as (He & _). apply HX, He. }
    destruct (fit_constant k _ _ _ HQ B) as (-> & ->). unfold affine. rewrite vdot_zero_l. ring. }
  assert (GZ : forall F, In F (facets (cell cells c)) -> G c F = vzero).
  { intros F HF. pose proof (proj1 (facets_iff dim cells nodes WF c F Hc) HF) as HF'. apply (facet_slope_unique X N c F); [exact HF' | apply A3; assumption|]. split; [intros _; reflexivity|]. split.
    - intros a b Ha Hb. rewrite vdot_zero_l, !NK by (apply HF'; assumption). ring.
    - rewrite vdot_zero_l, (BK c F Hc), (HX c Hc). ring. }
  replace (rsum (map (entering order U K X S P G c) (facets (cell cells c)))) with 0%R; [rewrite (HX c Hc); ring|]. symmetry.
  transitivity (- k * rsum (map (fun F => vdot U (outward cells nodes c F)) (facets (cell cells c))))%R; [|rewrite (CL c Hc); ring]. rewrite <- rsum_map_scal. apply rsum_map_ext. intros F HF. unfold Spec_run2.entering, diffused, Spec_run2.carried, reconstructed, rise. cbv zeta. rewrite (GZ F HF), (SZ c Hc), (HX c Hc), vdot_zero_l.
  replace (vdot (P3 (px K * px vzero) (py K * py vzero) (pz K * pz vzero)) (outward cells nodes c F)) with 0%R by (unfold vdot, vzero; cbn [px py pz]; ring).
  destruct (Rle_dec 0 _); [ring|]. destruct (beside cells c F) as [d|] eqn:EB; [|rewrite boundary_constant; ring]. unfold beside in EB. apply find_some in EB as (EB & _). apply in_range in EB. rewrite (SZ d EB), (HX d EB), vdot_zero_l. ring.
Qed.
Lemma full_steps_constant n order U K dt X Y : (forall c, iscell cells c -> rsum (map (fun F => vdot U (outward cells nodes c F)) (facets (cell cells c))) = 0%R) ->
  (forall c, iscell cells c -> X c = k) -> full_steps n order U K dt X Y -> forall c, iscell cells c -> Y c = k.
Proof.
  intros CL HX. revert Y. induction n as [|n IH]; intros Y; cbn [Spec_run2.full_steps].
  - intros H c Hc. rewrite (H c Hc). apply HX, Hc.
  - intros (Z1 & A & B). apply (full_step_constant order U K dt Z1 Y CL (IH Z1 A) B).
Qed.
End Constant.

(** conservation *)
Lemma entering_opposite order U K X S P N G c d F : reconstruction X S P N G -> has_facet dim cells c F -> beside cells c F = Some d -> entering order U K X S P G d F = (- entering order U K X S P G c F)%R.
Proof.
  intros (_ & _ & A3) HF E. destruct (beside_swap c d F HF E) as (Hd & NE & E').
  assert (EG : G d F = G c F). { apply (facet_slope_unique X N d F _ _ Hd); [apply A3; [exact (proj1 Hd) | apply (facets_iff dim cells nodes WF d F (proj1 Hd)); exact Hd] | apply (facet_slope_swap X N c d F _ HF E); apply A3; [exact (proj1 HF) | apply (facets_iff dim cells nodes WF c F (proj1 HF)); exact HF]]. }
  unfold Spec_run2.entering, diffused, Spec_run2.carried. cbv zeta. rewrite E, E', EG, (outward_two dim cells nodes WF NF PR c d F HF Hd NE). set (w := outward cells nodes c F).
  replace (vdot U (vscal (-1) w)) with (- vdot U w)%R by (unfold vdot, vscal; cbn [px py pz]; ring). rewrite (vdot_comm _ (vscal (-1) w)), vdot_scal, (vdot_comm w). rewrite <- upwind_opp. ring.
Qed.
Lemma full_mass order U K dt X Y S P N G : (forall c, iscell cells c -> (0 < measure_of cells nodes c)%R) -> reconstruction X S P N G -> full_step order U K dt X Y ->
  rsum (map (fun c => measure_of cells nodes c * Y c)%R (range (zlen cells))) =
  (rsum (map (fun c => measure_of cells nodes c * X c) (range (zlen cells))) + dt * rsum (map (fun p => entering order U K X S P G (fst p) (snd p)) (boundary_facets cells)))%R.
Proof.
  intros MP R (S' & P' & N' & G' & R' & E).
  assert (E1 : forall c, iscell cells c -> Y c = (X c + dt / measure_of cells nodes c * rsum (map (entering order U K X S P G c) (facets (cell cells c))))%R).
  { intros c Hc. rewrite (E c Hc). do 3 f_equal. apply map_ext_in. intros F HF. destruct (reconstruction_unique X X _ _ _ _ _ _ _ _ (fun _ _ => eq_refl) R' R) as (Q1 & _ & Q3). apply entering_same; [reflexivity | exact Q1 | exact Hc | apply Q3; assumption]. }
  set (fl := fun p => entering order U K X S P G (fst p) (snd p)).
  assert (IZ : rsum (map fl (inner_facets cells)) = 0%R).
  { apply (involution_sum _ (fun p => (match beside cells (fst p) (snd p) with Some d => d | None => 0 end, snd p))); [exact (inner_NoDup dim cells nodes labels VM)|]. intros (c, F) HI. apply (in_inner dim cells nodes labels VM) in HI as (HF & d & EB). unfold fl. cbn [fst snd]. rewrite EB. destruct (beside_swap c d F HF EB) as (Hd & NE & E').
    split; [apply (in_inner dim cells nodes labels VM); split; [exact Hd | exists c; exact E']|]. rewrite E'. split; [reflexivity|]. apply (entering_opposite order U K X S P N G c d F R HF EB). }
  assert (SP : rsum (map (fun c => rsum (map (entering order U K X S P G c) (facets (cell cells c)))) (range (zlen cells))) = rsum (map fl (boundary_facets cells))).
  { rewrite <- Rplus_0_r, <- IZ. unfold inner_facets, boundary_facets. clear IZ. induction (range (zlen cells)) as [|c l IH]; cbn [map flat_map]; [cbn; ring|]. rewrite rsum_cons, IH, !map_app, !rsum_app. set (a := rsum (map _ (flat_map _ l))). set (b := rsum (map _ (flat_map _ l))).
    rewrite !map_map. unfold fl at 1 2. cbn [fst snd]. rewrite !rsum_filter.
    replace (rsum (map (entering order U K X S P G c) (facets (cell cells c)))) with (rsum (map (fun x => if match beside cells c x with Some _ => false | None => true end then entering order U K X S P G c x else 0%R) (facets (cell cells c))) + rsum (map (fun x => if match beside cells c x with Some _ => true | None => false end then entering order U K X S P G c x else 0%R) (facets (cell cells c))))%R; [ring|].
    rewrite <- rsum_map_add. apply rsum_map_ext. intros F _. destruct (beside cells c F); ring. }
  rewrite <- SP, <- rsum_map_scal, <- rsum_map_add. apply rsum_map_ext. intros c Hc. apply in_range in Hc. rewrite (E1 c Hc). field. apply Rgt_not_eq, MP. exact Hc.
Qed.
End Mesh15.
