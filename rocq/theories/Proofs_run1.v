(** * Proofs_run1: the scheme on the mesh. *)
From Coq Require Import Reals Lra Permutation Sorted.
From Verif Require Import Py PyLemmas Model_part Spec_part Model_label Model_conn Spec_conn Proofs_conn1 Proofs_conn2 Model_geom Spec_geom Proofs_geom1 Proofs_geom2 Proofs_geom3
  Model_interp Spec_interp Model_fvm Spec_fvm Proofs_fvm1 Proofs_fvm2 Model_bc Spec_bc Model_domain Spec_domain Proofs_domain1 Proofs_domain4 Spec_parallel Proofs_parallel1 Properties_parallel Spec_run.
Open Scope Z_scope.

Lemma keep_all {A} (p : A -> bool) l : (forall x, In x l -> p x = true) -> filter p l = l.
Proof. induction l as [|x l IH]; intros H; cbn [filter]; [reflexivity|]. rewrite (H x (or_introl eq_refl)), IH by (intros y Hy; apply H; right; exact Hy). reflexivity. Qed.
Lemma Permutation_keep {A} (p : A -> bool) l l' : Permutation l l' -> Permutation (filter p l) (filter p l').
Proof.
  induction 1 as [|x l l' _ IH|x y l|l l' l'' _ IH1 _ IH2]; cbn [filter].
  - apply Permutation_refl.
  - destruct (p x); [apply perm_skip; exact IH | exact IH].
  - destruct (p x), (p y); try apply Permutation_refl; apply perm_swap.
  - eapply Permutation_trans; eassumption.
Qed.
Lemma NoDup_map_on {A B} (f : A -> B) l : (forall x y, In x l -> In y l -> f x = f y -> x = y) -> NoDup l -> NoDup (map f l).
Proof.
  intros H ND. induction ND as [|x l Nx ND IH]; cbn [map]; constructor.
  - intros X. apply in_map_iff in X as (y & E & Hy). apply Nx. rewrite <- (H y x (or_intror Hy) (or_introl eq_refl) E). exact Hy.
  - apply IH. intros a b Ha Hb. apply H; right; assumption.
Qed.

Section Mesh.
Context (dim : Z) (cells : list (list Z)) (nodes : list pt).
Hypothesis WF : wf_mesh dim (zlen nodes) cells.
Hypothesis NF : forall c, iscell cells c -> nonflat dim nodes (cell cells c).
Hypothesis PR : proper dim nodes cells.
Lemma row_facts c : iscell cells c -> zlen (cell cells c) = dim + 1 /\ NoDup (cell cells c).
Proof. intros Hc. destruct (wm_rows _ _ _ WF (cell cells c)) as (A & B & _); [apply nthZ_In; exact Hc | auto]. Qed.
Lemma filter_out_len k l : NoDup l -> In k l -> zlen (filter (fun x => negb (x =? k)) l) = zlen l - 1.
Proof.
  induction 1 as [|x l Nx ND IH]; intros Hk; [destruct Hk|]. cbn [filter]. destruct (Z.eqb_spec x k) as [->|NE]; cbn [negb].
  - rewrite keep_all; [rewrite zlen_cons; lia|]. intros y Hy. destruct (Z.eqb_spec y k) as [->|]; [contradiction | reflexivity].
  - rewrite !zlen_cons. destruct Hk as [->|Hk]; [contradiction|]. rewrite IH by exact Hk. lia.
Qed.
Lemma facets_iff c F : iscell cells c -> In F (facets (cell cells c)) <-> has_facet dim cells c F.
Proof.
  intros Hc. destruct (row_facts c Hc) as (HL & ND). unfold facets. rewrite in_map_iff. split.
  - intros (k & <- & Hk). split; [exact Hc|]. split; [|split].
    + apply sorted_lt_filter. apply np_sort_lt. exact ND.
    + rewrite filter_out_len; [rewrite zlen_np_sort; lia | apply (Permutation_NoDup (Permutation_sym (np_sort_perm _))); exact ND | apply np_sort_In; exact Hk].
    + intros x Hx. apply filter_In in Hx as (Hx & _). apply np_sort_In. exact Hx.
  - intros HF. destruct (opposite_node dim cells nodes WF c F HF) as (x & PX & Hx & Nx). exists x. split; [|exact Hx]. apply sorted_unique.
    + apply sorted_lt_filter. apply np_sort_lt. exact ND.
    + exact (proj1 (proj2 HF)).
    + assert (P1 : Permutation (np_sort (cell cells c)) (x :: F)) by (eapply Permutation_trans; [apply np_sort_perm | exact PX]).
      eapply Permutation_trans; [apply (Permutation_keep _ _ _ P1)|]. cbn [filter]. rewrite Z.eqb_refl. cbn [negb]. rewrite keep_all; [apply Permutation_refl|]. intros y Hy. destruct (Z.eqb_spec y x) as [->|]; [contradiction | reflexivity].
Qed.
Lemma facets_NoDup c : iscell cells c -> NoDup (facets (cell cells c)).
Proof.
  intros Hc. destruct (row_facts c Hc) as (HL & ND). unfold facets. apply NoDup_map_on; [|exact ND]. intros a b Ha Hb E.
  destruct (Z.eq_dec a b) as [|N]; [assumption|]. exfalso. assert (X : In a (filter (fun x => negb (x =? b)) (np_sort (cell cells c)))). { apply filter_In. split; [apply np_sort_In; exact Ha|]. destruct (Z.eqb_spec a b); [contradiction | reflexivity]. }
  rewrite <- E in X. apply filter_In in X as (_ & X). rewrite Z.eqb_refl in X. discriminate X.
Qed.
Lemma outward_ok c F : has_facet dim cells c F -> outward_of nodes (cell cells c) F (outward cells nodes c F).
Proof.
  intros HF. pose proof (wm_dim _ _ _ WF) as Hd. destruct (row_facts c (proj1 HF)) as (HL & ND). destruct (opposite_node dim cells nodes WF c F HF) as (x & PX & Hx & Nx). pose proof (proj1 (proj2 (proj2 HF))) as LF. assert (LF' : zlen F = 2 \/ zlen F = 3) by lia.
  assert (EX : forall y, In y (cell cells c) -> ~ In y F -> y = x). { intros y Hy Ny. apply (Permutation_in y PX) in Hy as [->|Hy]; [reflexivity | contradiction]. }
  unfold outward. cbv zeta. set (x' := hd 0 (filter _ _)).
  assert (Ex : x' = x). { apply EX; unfold x'; destruct (filter (fun k => negb (mem k F)) (cell cells c)) as [|y l] eqn:EF; cbn [hd].
    1,3: exfalso; assert (X : In x []) by (rewrite <- EF; apply filter_In; split; [exact Hx | rewrite (proj2 (mem_not_In _ _) Nx); reflexivity]); exact X.
    all: assert (X : In y (filter (fun k => negb (mem k F)) (cell cells c))) by (rewrite EF; left; reflexivity); apply filter_In in X as (X1 & X2); [exact X1 || (intros X; apply mem_In in X; rewrite X in X2; discriminate X2)]. }
  rewrite Ex. set (v := area_vector nodes F). destruct F as [|p F']; [cbn in LF; lia|]. cbn [hd]. set (F := p :: F') in *.
  assert (HpF : In p F) by (left; reflexivity). assert (SD : side nodes F (at_node nodes x) <> 0%R) by (destruct (centre_same_side dim cells nodes WF NF c F x HF Hx Nx) as (_ & _ & _ & X); exact X).
  assert (SA : forall q, In q F -> exists k : R, (0 < k)%R /\ side nodes F (at_node nodes x) = (k * vdot v (vsub (at_node nodes x) (at_node nodes q)))%R) by (intros q Hq; apply side_area; assumption).
  assert (SG : forall q, In q F -> (vdot v (vsub (at_node nodes x) (at_node nodes q)) < 0 <-> side nodes F (at_node nodes x) < 0)%R).
  { intros q Hq. destruct (SA q Hq) as (k & Hk & E). rewrite E. split; intros H.
    - assert (0 < k * - vdot v (vsub (at_node nodes x) (at_node nodes q)))%R by (apply Rmult_lt_0_compat; lra). lra.
    - destruct (Rlt_dec (vdot v (vsub (at_node nodes x) (at_node nodes q))) 0) as [X|X]; [exact X|]. assert (0 <= k * vdot v (vsub (at_node nodes x) (at_node nodes q)))%R by (apply Rmult_le_pos; lra). lra. }
  assert (NZ : forall q, In q F -> vdot v (vsub (at_node nodes x) (at_node nodes q)) <> 0%R). { intros q Hq E. destruct (SA q Hq) as (k & Hk & E'). apply SD. rewrite E', E. ring. }
  destruct (Rlt_dec (vdot v (vsub (at_node nodes x) (at_node nodes p))) 0) as [H|H]; (split; [auto|]); intros y q Hy Ny Hq; rewrite (EX y Hy Ny).
  - apply SG; [exact Hq|]. apply (SG p HpF). exact H.
  - assert (X : ~ (vdot v (vsub (at_node nodes x) (at_node nodes q)) < 0)%R) by (intros X; apply H, (SG p HpF), (SG q Hq), X). pose proof (NZ q Hq). replace (vdot (vscal (-1) v) (vsub (at_node nodes x) (at_node nodes q))) with (- vdot v (vsub (at_node nodes x) (at_node nodes q)))%R by (unfold vdot, vscal; cbn [px py pz]; ring). lra.
Qed.
Lemma outward_unique c F w w' : has_facet dim cells c F -> outward_of nodes (cell cells c) F w -> outward_of nodes (cell cells c) F w' -> w = w'.
Proof.
  intros HF (A & B) (A' & B'). destruct (opposite_node dim cells nodes WF c F HF) as (x & _ & Hx & Nx). pose proof (wm_dim _ _ _ WF) as Hd. pose proof (proj1 (proj2 (proj2 HF))) as LF. destruct F as [|p F]; [cbn in LF; lia|].
  pose proof (B x p Hx Nx (or_introl eq_refl)) as H1. pose proof (B' x p Hx Nx (or_introl eq_refl)) as H2. set (v := area_vector nodes (p :: F)) in *. set (d := vsub _ _) in *.
  assert (E : vdot (vscal (-1) v) d = (- vdot v d)%R) by (unfold vdot, vscal; cbn [px py pz]; ring).
  destruct A as [-> | ->], A' as [-> | ->]; try reflexivity; exfalso; rewrite E in *; lra.
Qed.
Lemma outward_two a b F : has_facet dim cells a F -> has_facet dim cells b F -> a <> b -> outward cells nodes b F = vscal (-1) (outward cells nodes a F).
Proof. intros Ha Hb N. exact (outward_opposite dim cells nodes a b F _ _ WF PR Ha Hb N (outward_ok a F Ha) (outward_ok b F Hb)). Qed.
Lemma beside_spec c F d : has_facet dim cells c F -> beside cells c F = Some d <-> has_facet dim cells d F /\ d <> c.
Proof.
  intros HF. unfold beside.
  assert (T : forall x, iscell cells x -> (negb (x =? c) && forallb (fun k => mem k (cell cells x)) F = true <-> has_facet dim cells x F /\ x <> c)).
  { intros x Hx. rewrite andb_true_iff, forallb_forall. destruct HF as (_ & S & L & _). split.
    - intros (A & B). split; [|destruct (Z.eqb_spec x c); [discriminate A | assumption]]. split; [exact Hx|]. split; [exact S|]. split; [exact L|]. intros k Hk. apply mem_In. apply B, Hk.
    - intros ((_ & _ & _ & I) & N). split; [destruct (Z.eqb_spec x c); [contradiction | reflexivity]|]. intros k Hk. apply mem_In. apply I, Hk. }
  split.
  - intros E. apply find_some in E as (E1 & E2). apply T; [apply in_range; exact E1 | exact E2].
  - intros (Hd & N). destruct (find _ _) as [e|] eqn:E.
    + apply find_some in E as (E1 & E2). apply T in E2 as (He & Ne); [|apply in_range; exact E1]. f_equal. destruct (mesh_conforming dim cells nodes WF PR F c d e HF Hd He) as [X|[X|X]]; congruence.
    + exfalso. pose proof (find_none _ _ E d ltac:(apply in_range; exact (proj1 Hd))) as X. cbv beta in X. pose proof (proj2 (T d (proj1 Hd)) (conj Hd N)) as Y. congruence.
Qed.
Lemma beside_none c F : has_facet dim cells c F -> beside cells c F = None <-> only_cell dim cells c F.
Proof.
  intros HF. split.
  - intros E. split; [exact HF|]. intros c' H. destruct (Z.eq_dec c' c) as [|N]; [assumption|]. rewrite (proj2 (beside_spec c F c' HF) (conj H N)) in E. discriminate E.
  - intros (_ & O). destruct (beside cells c F) as [d|] eqn:E; [|reflexivity]. apply (beside_spec c F d HF) in E as (H & N). contradiction (N (O d H)).
Qed.
End Mesh.
