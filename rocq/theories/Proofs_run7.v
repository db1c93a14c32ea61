(** * Proofs_run7: mirror images, facets of the boundary, fits of projected data. *)
From Coq Require Import Reals Lra Nsatz Permutation Sorted.
From Verif Require Import Py PyLemmas Model_part Spec_part Model_label Model_conn Spec_conn Proofs_conn1 Proofs_conn2 Model_geom Spec_geom Proofs_geom1 Proofs_geom2 Proofs_geom3
  Model_halo Spec_halo Model_interp Spec_interp Spec_lsq Proofs_lsq Model_bc Spec_bc Model_domain Spec_domain Proofs_domain1 Proofs_domain4 Spec_parallel Proofs_parallel1 Spec_run Proofs_run1 Proofs_run6 Spec_run2.
Open Scope Z_scope.

(** in 2D the third coordinate is not used *)
Definition level (dim : Z) (p : pt) : pt := if dim =? 2 then P3 (px p) (py p) 0 else p.
Definition level1 (dim : Z) (q : pt * R) : pt * R := (level dim (fst q), snd q).
Lemma vdot_level dim g p : gradient dim g -> vdot g (level dim p) = vdot g p.
Proof. intros G. unfold level. destruct (Z.eqb_spec dim 2) as [E|]; [|reflexivity]. unfold vdot. cbn [px py pz]. rewrite (G E). ring. Qed.
Lemma misfit_level dim l c g : gradient dim g -> misfit (map (level1 dim) l) c g = misfit l c g.
Proof. intros G. unfold misfit. rewrite map_map. f_equal. apply map_ext. intros (p, w). unfold affine. cbn [level1 fst snd]. rewrite (vdot_level dim g p G). reflexivity. Qed.
Lemma best_fit_level dim l c g : best_fit dim l c g <-> best_fit dim (map (level1 dim) l) c g.
Proof.
  unfold best_fit. split; intros (G & A & B); (split; [exact G|]); split.
  - intros c' g' G'. rewrite !misfit_level by assumption. apply A; exact G'.
  - intros c' g' G'. rewrite !misfit_level by assumption. apply B; exact G'.
  - intros c' g' G'. specialize (A c' g' G'). rewrite !misfit_level in A by assumption. exact A.
  - intros c' g' G'. specialize (B c' g' G'). rewrite !misfit_level in B by assumption. exact B.
Qed.
Lemma misfit_from_level dim x w l g : gradient dim g -> misfit_from x w (map (level1 dim) l) g = misfit_from x w l g.
Proof.
  intros G. unfold misfit_from. rewrite map_map. f_equal. apply map_ext. intros (p, v). cbn [level1 fst snd]. cbv zeta.
  replace (vdot g (vsub (level dim p) x)) with (vdot g (vsub p x)); [reflexivity|]. unfold level. destruct (Z.eqb_spec dim 2) as [E|]; [|reflexivity]. unfold vdot, vsub. cbn [px py pz]. rewrite (G E). ring.
Qed.
Lemma best_slope_level dim x w l g : best_slope dim x w l g <-> best_slope dim x w (map (level1 dim) l) g.
Proof.
  unfold best_slope. split; intros (G & A & B); (split; [exact G|]); split.
  - intros g' G'. rewrite !misfit_from_level by assumption. apply A; exact G'.
  - intros g' G'. rewrite !misfit_from_level by assumption. apply B; exact G'.
  - intros g' G'. specialize (A g' G'). rewrite !misfit_from_level in A by assumption. exact A.
  - intros g' G'. specialize (B g' G'). rewrite !misfit_from_level in B by assumption. exact B.
Qed.

Lemma spans_level dim l : spans dim (map (level dim) l) -> spans dim l.
Proof.
  unfold spans, level. destruct (dim =? 2); [|rewrite map_id; tauto]. intros (a & b & c & Ha & Hb & Hc & T). apply in_map_iff in Ha as (a' & <- & Ha). apply in_map_iff in Hb as (b' & <- & Hb). apply in_map_iff in Hc as (c' & <- & Hc).
  exists a', b', c'. repeat (split; [assumption|]). exact T.
Qed.
Lemma spans_from_level dim x l : spans_from dim x (map (level dim) l) -> spans_from dim x l.
Proof.
  unfold spans_from, level. destruct (dim =? 2); [|rewrite map_id; tauto]. intros (a & b & Ha & Hb & T). apply in_map_iff in Ha as (a' & <- & Ha). apply in_map_iff in Hb as (b' & <- & Hb). exists a', b'. repeat (split; [assumption|]). exact T.
Qed.
Lemma spans_incl dim l l' : incl l l' -> spans dim l -> spans dim l'.
Proof. intros H. unfold spans. destruct (dim =? 2); [intros (a & b & c & A & B & C & T); exists a, b, c | intros (a & b & c & d & A & B & C & E & T); exists a, b, c, d]; repeat (split; [apply H; assumption|]); exact T. Qed.
Lemma spans_from_incl dim x l l' : incl l l' -> spans_from dim x l -> spans_from dim x l'.
Proof. intros H. unfold spans_from. destruct (dim =? 2); [intros (a & b & A & B & T); exists a, b | intros (a & b & c & A & B & C & T); exists a, b, c]; repeat (split; [apply H; assumption|]); exact T. Qed.

(** the mirror image is the reflection *)
Lemma along nn nw s n1 w1 : (nn <> 0 -> nn * w1 = nw * n1 -> nw = - (2 * s) -> w1 = - (2 * s / nn * n1))%R.
Proof. intros N E ->. apply (Rmult_eq_reg_l nn); [|exact N]. rewrite E. field. exact N. Qed.
Lemma reflect2 a b v g : pz a = 0%R -> pz b = 0%R -> pz v = 0%R -> let n := P3 (py a - py b) (px b - px a) 0 in vdot n n <> 0%R ->
  turn a b (vscal (1/2) (vadd v g)) = 0%R -> vdot (vsub g v) (vsub b a) = 0%R ->
  P3 (px g) (py g) 0 = vsub v (vscal (2 * vdot n (vsub v a) / vdot n n) n).
Proof.
  destruct a as [a1 a2 a3], b as [b1 b2 b3], v as [v1 v2 v3], g as [g1 g2 g3]. unfold vdot, vsub, vscal, vadd, turn. cbn [px py pz]. intros -> -> -> N T O.
  assert (NW : ((a2 - b2) * (g1 - v1) + (b1 - a1) * (g2 - v2) = - (2 * ((a2 - b2) * (v1 - a1) + (b1 - a1) * (v2 - a2) + 0 * (0 - 0))))%R) by lra.
  assert (W1 := fun E => along _ _ _ (a2 - b2)%R (g1 - v1)%R N E NW). assert (W2 := fun E => along _ _ _ (b1 - a1)%R (g2 - v2)%R N E NW). cbv beta in W1, W2.
  assert (X1 := W1 ltac:(clear - O; nsatz)). assert (X2 := W2 ltac:(clear - O; nsatz)). f_equal; lra.
Qed.
Lemma reflect3 a b c v g : let u := vsub b a in let w := vsub c a in let n := vscal (1 / 2) (P3 (py u * pz w - pz u * py w) (pz u * px w - px u * pz w) (px u * py w - py u * px w)) in vdot n n <> 0%R ->
  det4 a b c (vscal (1/2) (vadd v g)) = 0%R -> vdot (vsub g v) u = 0%R -> vdot (vsub g v) w = 0%R ->
  g = vsub v (vscal (2 * vdot n (vsub v a) / vdot n n) n).
Proof.
  intros u w n N T O1 O2. unfold det4 in T. fold u w in T. assert (T' : (vdot n (vsub g v) = - (2 * vdot n (vsub v a)))%R). { revert T. unfold n, det, vdot, vsub, vscal, vadd. cbn [px py pz]. lra. }
  assert (E : vscal (vdot n n) (vsub g v) = vscal (vdot n (vsub g v)) n).
  { clear T T' N. set (d := vsub g v) in *. destruct u as [u1 u2 u3], w as [w1 w2 w3], d as [d1 d2 d3]. unfold n, vdot, vscal in *. cbn [px py pz] in *. f_equal; nsatz. }
  clearbody n. clear u w T O1 O2. remember (vdot n n) as nn eqn:Enn. remember (vdot n (vsub g v)) as nw eqn:Enw. remember (vdot n (vsub v a)) as q eqn:Eq. clear Enn Enw Eq.
  destruct n as [n1 n2 n3], g as [g1 g2 g3], v as [v1 v2 v3]. unfold vscal, vsub in *. cbn [px py pz] in *. injection E as E1 E2 E3.
  pose proof (along _ _ _ _ _ N E1 T'). pose proof (along _ _ _ _ _ N E2 T'). pose proof (along _ _ _ _ _ N E3 T'). f_equal; lra.
Qed.

(** lists *)
Lemma NoDup_flat_map {A B} (f : A -> list B) l : NoDup l -> (forall x, In x l -> NoDup (f x)) -> (forall x y z, In x l -> In y l -> In z (f x) -> In z (f y) -> x = y) -> NoDup (flat_map f l).
Proof.
  induction 1 as [|x l Nx ND IH]; intros H1 H2; cbn [flat_map]; [apply NoDup_nil|]. apply NoDup_app_intro; [apply H1; left; reflexivity | apply IH; [intros y Hy; apply H1; right; exact Hy | intros a b z Ha Hb; apply H2; right; assumption] |].
  intros z Hz Hz'. apply in_flat_map in Hz' as (y & Hy & Hz'). apply Nx. rewrite (H2 x y z (or_introl eq_refl) (or_intror Hy) Hz Hz'). exact Hy.
Qed.
Lemma Permutation_flat_map_on {A B} (f g : A -> list B) l : (forall x, In x l -> Permutation (f x) (g x)) -> Permutation (flat_map f l) (flat_map g l).
Proof. induction l as [|x l IH]; intros H; cbn [flat_map]; [apply Permutation_refl|]. apply Permutation_app; [apply H; left; reflexivity | apply IH; intros y Hy; apply H; right; exact Hy]. Qed.
Lemma filter_split {A} (p : A -> bool) l : Permutation (filter p l ++ filter (fun x => negb (p x)) l) l.
Proof. induction l as [|x l IH]; cbn [filter app]; [apply Permutation_refl|]. destruct (p x); cbn [negb app]; [apply perm_skip; exact IH|]. eapply Permutation_trans; [apply Permutation_sym, Permutation_middle|]. apply perm_skip. exact IH. Qed.
Lemma flat_map_one {A} (f : Z -> list A) n k : 0 <= k < n -> (forall j, 0 <= j < n -> j <> k -> f j = []) -> flat_map f (range n) = f k.
Proof.
  intros Hk H. assert (G : forall l, NoDup l -> (forall j, In j l -> 0 <= j < n) -> In k l -> flat_map f l = f k).
  { induction 1 as [|x l Nx ND IH]; intros HI Hin; [destruct Hin|]. cbn [flat_map]. destruct (Z.eq_dec x k) as [->|N].
    - replace (flat_map f l) with (@nil A); [apply app_nil_r|]. symmetry. clear IH Hin ND. induction l as [|y l IH]; [reflexivity|]. cbn [flat_map]. rewrite (H y); [|apply HI; right; left; reflexivity | intros ->; apply Nx; left; reflexivity].
      apply IH; [intros X; apply Nx; right; exact X | intros j Hj; apply HI; destruct Hj as [<-|Hj]; [left; reflexivity | right; right; exact Hj]].
    - rewrite (H x) by (try (apply HI; left; reflexivity); exact N). apply IH; [intros j Hj; apply HI; right; exact Hj|]. destruct Hin as [->|Hin]; [contradiction | exact Hin]. }
  apply G; [apply NoDup_range | intros j Hj; apply in_range; exact Hj | apply in_range; exact Hk].
Qed.
Lemma flat_map_none {A B} (f : A -> list B) l : (forall x, In x l -> f x = []) -> flat_map f l = [].
Proof. induction l as [|x l IH]; intros H; [reflexivity|]. cbn [flat_map]. rewrite (H x (or_introl eq_refl)). apply IH. intros y Hy. apply H. right. exact Hy. Qed.
Lemma buckets {A} (own : A -> Z) l SIZE r : NoDup l -> (forall x, In x l -> 0 <= own x < SIZE) ->
  Permutation (filter (fun x => negb (own x =? r)) l) (flat_map (fun s => if s =? r then [] else filter (fun x => own x =? s) l) (range SIZE)).
Proof.
  intros ND H. apply NoDup_Permutation; [apply NoDup_filter; exact ND | |].
  - apply NoDup_flat_map; [apply NoDup_range | intros s _; destruct (s =? r); [apply NoDup_nil | apply NoDup_filter; exact ND]|]. intros s t x _ _ Hs Ht. destruct (s =? r); [destruct Hs|]. destruct (t =? r); [destruct Ht|]. apply filter_In in Hs as (_ & Hs). apply filter_In in Ht as (_ & Ht). lia.
  - intros x. rewrite in_flat_map. split.
    + intros Hx. apply filter_In in Hx as (Hx & N). exists (own x). split; [apply in_range; apply H; exact Hx|]. destruct (own x =? r); [discriminate N|]. apply filter_In. split; [exact Hx | apply Z.eqb_refl].
    + intros (s & Hs & Hx). destruct (Z.eqb_spec s r) as [|N]; [destruct Hx|]. apply filter_In in Hx as (Hx & E). apply filter_In. split; [exact Hx|]. destruct (Z.eqb_spec (own x) r); [lia | reflexivity].
Qed.

Section Mesh7.
Context (dim : Z) (cells : list (list Z)) (nodes : list pt) (labels : list Z).
Hypothesis VM : valid_mesh dim cells nodes labels.
Hypothesis PL : dim = 2 -> planar nodes.
Notation WF := (vm_mesh _ _ _ _ VM).
Notation NF := (vm_nonflat _ _ _ _ VM).

Lemma area_nonzero c F : has_facet dim cells c F -> vdot (area_vector nodes F) (area_vector nodes F) <> 0%R.
Proof.
  intros HF Z0. destruct (outward_ok dim cells nodes WF NF c F HF) as (A & B). destruct (opposite_node dim cells nodes WF c F HF) as (x & _ & Hx & Nx).
  assert (EV : area_vector nodes F = vzero). { destruct (area_vector nodes F) as [n1 n2 n3]. unfold vdot in Z0. cbn [px py pz] in Z0. pose proof (Rle_0_sqr n1). pose proof (Rle_0_sqr n2). pose proof (Rle_0_sqr n3). unfold Rsqr in *. unfold vzero. f_equal; nra. }
  assert (LF : zlen F = dim) by (apply HF). pose proof (wm_dim _ _ _ WF) as Hd. destruct F as [|p F]; [unfold zlen in LF; cbn in LF; lia|]. specialize (B x p Hx Nx (or_introl eq_refl)). rewrite EV in A. destruct A as [A|A]; rewrite A in B; unfold vdot, vscal, vzero in B; cbn [px py pz] in B; lra.
Qed.
Lemma at_planar k : dim = 2 -> pz (at_node nodes k) = 0%R.
Proof.
  intros E. unfold at_node, nthZ. destruct (nth_in_or_default (Z.to_nat k) nodes vzero) as [H|H]; [apply (PL E); exact H | rewrite H; reflexivity].
Qed.
Lemma centre_level c : dim = 2 -> pz (centre dim cells nodes c) = 0%R.
Proof. intros E. unfold centre, cell_centre. rewrite E. reflexivity. Qed.
Lemma mirror_reflection c F v g : has_facet dim cells c F -> (dim = 2 -> pz v = 0%R) -> mirror nodes F v g -> level dim g = reflection nodes F v.
Proof.
  intros HF Hv (M1 & M2). pose proof (area_nonzero c F HF) as AN. pose proof (wm_dim _ _ _ WF) as Hd. assert (LF : zlen F = dim) by (apply HF). unfold level, reflection. cbv zeta. destruct (Z.eqb_spec dim 2) as [E|N].
  - rewrite E in LF. destruct (list2 F LF) as (a & b & ->). cbn [hd]. unfold area_vector in *. cbn [map] in *. apply reflect2; [apply at_planar; exact E | apply at_planar; exact E | apply Hv; exact E | exact AN | exact M1|]. apply M2; cbn [In]; auto.
  - assert (E : dim = 3) by lia. rewrite E in LF. destruct (list3 F LF) as (a & b & d & ->). cbn [hd]. unfold area_vector in *. cbn [map] in *. apply (reflect3 (at_node nodes a) (at_node nodes b) (at_node nodes d) v g); [exact AN | exact M1 | apply M2; cbn [In]; auto | apply M2; cbn [In]; auto].
Qed.
Lemma in_boundary c F : In (c, F) (boundary_facets cells) <-> only_cell dim cells c F.
Proof.
  unfold boundary_facets. rewrite in_flat_map. split.
  - intros (c' & Hc' & HI). apply in_map_iff in HI as (F' & E & HI). injection E as -> ->. apply filter_In in HI as (H1 & H2). apply in_range in Hc'. apply (facets_iff dim cells nodes WF c F Hc') in H1. apply (beside_none dim cells nodes WF (vm_proper _ _ _ _ VM) c F H1). destruct (beside cells c F); [discriminate H2 | reflexivity].
  - intros HO. pose proof (proj1 HO) as HF. exists c. split; [apply in_range; exact (proj1 HF)|]. apply in_map. apply filter_In. split; [apply (facets_iff dim cells nodes WF c F (proj1 HF)); exact HF|]. rewrite (proj2 (beside_none dim cells nodes WF (vm_proper _ _ _ _ VM) c F HF) HO). reflexivity.
Qed.
Lemma boundary_NoDup : NoDup (boundary_facets cells).
Proof.
  unfold boundary_facets. apply NoDup_flat_map; [apply NoDup_range | |].
  - intros c Hc. apply in_range in Hc. apply NoDup_map_on; [intros a b _ _ E; congruence|]. apply NoDup_filter. apply (facets_NoDup dim cells nodes WF). exact Hc.
  - intros c c' p _ _ H H'. apply in_map_iff in H as (F & <- & _). apply in_map_iff in H' as (F' & E & _). congruence.
Qed.
Lemma in_boundary_at g c F : In (c, F) (boundary_at cells g) <-> only_cell dim cells c F /\ In g F.
Proof. unfold boundary_at. rewrite filter_In, in_boundary, mem_In. reflexivity. Qed.
Lemma in_touching g c : In c (touching cells g) <-> iscell cells c /\ In g (cell cells c).
Proof. unfold touching. rewrite filter_In, in_range, mem_In. reflexivity. Qed.
Lemma in_neighbours c d : In d (neighbours cells c) <-> iscell cells d /\ d <> c /\ share_node cells c d.
Proof.
  unfold neighbours. rewrite filter_In, in_range, andb_true_iff, existsb_exists. split.
  - intros (A & B & k & Hk & M). split; [exact A|]. split; [destruct (Z.eqb_spec d c); [discriminate B | assumption]|]. exists k. apply mem_In in M. auto.
  - intros (A & B & k & H1 & H2). split; [exact A|]. split; [destruct (Z.eqb_spec d c); [contradiction | reflexivity]|]. exists k. split; [exact H2 | apply mem_In; exact H1].
Qed.
End Mesh7.
