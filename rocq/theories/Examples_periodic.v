(** * Examples_periodic: a 3 x 2 rectangle of 12 triangles, periodic in x, meets the hypotheses of C63-C65 with IEEE single precision for [f32];
    and single precision does round lengths such as 1/10 (hypothesis of C63_length_refuted). *)
From Coq Require Import Reals Lra ZifyBool.
From Flocq Require Import Core.
From Verif Require Import Py PyLemmas Model_part Model_label Model_conn Model_geom Model_halo Model_periodic Model_fvm Spec_geom Spec_interp Spec_fvm Spec_periodic
  Proofs_bc Examples_interp Properties_periodic.
Open Scope Z_scope.

(** binary32, rounding to nearest, ties to even *)
Definition single : R -> R := Generic_fmt.round radix2 (FLT_exp (-149) 24) ZnearestE.
Lemma single_exact m e : (Z.abs m < 2 ^ 24)%Z -> (-149 <= e)%Z -> single (F2R (Float radix2 m e)) = F2R (Float radix2 m e).
Proof. intros Hm He. apply round_generic; [apply valid_rnd_N|]. apply generic_format_FLT. exists (Float radix2 m e); [reflexivity | exact Hm | exact He]. Qed.
Lemma single_Z m : (Z.abs m < 2 ^ 24)%Z -> single (IZR m) = IZR m.
Proof. intros H. rewrite <- (Rmult_1_r (IZR m)) at 1 2. change 1%R with (bpow radix2 0). apply (single_exact m 0); [exact H | lia]. Qed.
Lemma single_half m : (Z.abs m < 2 ^ 24)%Z -> single (IZR m / 2) = (IZR m / 2)%R.
Proof. intros H. assert (E : (IZR m / 2)%R = F2R (Float radix2 m (-1))) by (unfold F2R; cbn; lra). rewrite E. apply single_exact; [exact H | lia]. Qed.
(** 1/10 is not a single precision number *)
Lemma pow2_mod5 k : (0 <= k)%Z -> (2 ^ k mod 5 <> 0)%Z.
Proof.
  intros H. pattern k. apply natlike_ind; [cbn; lia | | exact H]. intros x Hx IH. rewrite Z.pow_succ_r by exact Hx. rewrite Z.mul_mod by lia. pose proof (Z.mod_pos_bound (2 ^ x) 5 ltac:(lia)).
  assert (Q : (2 ^ x mod 5 = 1 \/ 2 ^ x mod 5 = 2 \/ 2 ^ x mod 5 = 3 \/ 2 ^ x mod 5 = 4)%Z) by lia. destruct Q as [-> | [-> | [-> | ->]]]; cbn; lia.
Qed.
Theorem C63_single_tenth : single (1 / 10) <> (1 / 10)%R.
Proof.
  intros E. assert (G : generic_format radix2 (FLT_exp (-149) 24) (1 / 10)) by (rewrite <- E; apply generic_format_round; [apply FLT_exp_valid; reflexivity | apply valid_rnd_N]).
  apply FLT_format_generic in G; [|reflexivity]. destruct G as [[m e] Em _ _]. unfold F2R in Em. cbn [Fnum Fexp] in Em. destruct (Z_le_gt_dec 0 e) as [He|He].
  - rewrite <- IZR_Zpower, <- mult_IZR in Em by exact He. assert (X : (10 * IZR (m * radix2 ^ e))%R = 1%R) by lra. rewrite <- mult_IZR in X. apply eq_IZR in X. lia.
  - assert (P : (bpow radix2 e * bpow radix2 (- e))%R = 1%R) by (rewrite <- bpow_plus; replace (e + - e) with 0 by lia; reflexivity).
    assert (X : (IZR m * 10)%R = bpow radix2 (- e)) by (apply (Rmult_eq_reg_l (bpow radix2 e)); [rewrite P; lra | pose proof (bpow_gt_0 radix2 e); lra]).
    rewrite <- IZR_Zpower in X by lia. rewrite <- mult_IZR in X. apply eq_IZR in X. change (radix_val radix2) with 2 in X. apply (pow2_mod5 (- e)); [lia|]. rewrite <- X. replace (m * 10) with ((m * 2) * 5) by ring. apply Z.mod_mul. lia.
Qed.

Definition px_fcenter : list pt := [P3 (1/2) 0 0; P3 (1/2) (1/2) 0; P3 0 (1/2) 0; P3 1 (1/2) 0; P3 (1/2) 1 0; P3 (3/2) 0 0; P3 (3/2) (1/2) 0; P3 2 (1/2) 0; P3 (3/2) 1 0; P3 (5/2) 0 0; P3 (5/2) (1/2) 0; P3 3 (1/2) 0; P3 (5/2) 1 0; P3 (1/2) (3/2) 0; P3 0 (3/2) 0; P3 1 (3/2) 0; P3 (1/2) 2 0; P3 (3/2) (3/2) 0; P3 2 (3/2) 0; P3 (3/2) 2 0; P3 (5/2) (3/2) 0; P3 3 (3/2) 0; P3 (5/2) 2 0]%R.
Definition px_vertex : list pt := [P3 0 0 0; P3 1 0 0; P3 2 0 0; P3 3 0 0; P3 0 1 0; P3 1 1 0; P3 2 1 0; P3 3 1 0; P3 0 2 0; P3 1 2 0; P3 2 2 0; P3 3 2 0]%R.
Definition px_cellid : list (list Z) := [[0; -1]; [0; 1]; [0; -1]; [1; 2]; [1; 6]; [2; -1]; [2; 3]; [3; 4]; [3; 8]; [4; -1]; [4; 5]; [5; -1]; [5; 10]; [6; 7]; [6; -1]; [7; 8]; [7; -1]; [8; 9]; [9; 10]; [9; -1]; [10; 11]; [11; -1]; [11; -1]].
Definition px_name : list Z := [4; 0; 11; 0; 0; 4; 0; 0; 0; 4; 0; 22; 0; 0; 11; 0; 3; 0; 0; 3; 0; 22; 3].
Definition px_nodename : list Z := [11; 4; 4; 22; 11; 0; 0; 22; 11; 3; 3; 22].
Definition px_cellnid : list (list Z) := [[1; 2; 6; -1; -1; -1; -1; -1; -1; 3]; [0; 2; 3; 6; 7; 8; -1; -1; -1; 6]; [0; 1; 3; 4; 6; 7; 8; -1; -1; 7]; [1; 2; 4; 5; 6; 7; 8; 9; 10; 9]; [2; 3; 5; 8; 9; 10; -1; -1; -1; 6]; [3; 4; 8; 9; 10; 11; -1; -1; -1; 6]; [0; 1; 2; 3; 7; 8; -1; -1; -1; 6]; [1; 2; 3; 6; 8; 9; -1; -1; -1; 6]; [1; 2; 3; 4; 5; 6; 7; 9; 10; 9]; [3; 4; 5; 7; 8; 10; 11; -1; -1; 7]; [3; 4; 5; 8; 9; 11; -1; -1; -1; 6]; [5; 9; 10; -1; -1; -1; -1; -1; -1; 3]].
Definition px_nodecell : list (list Z) := [[0; -1; -1; -1; -1; -1; 1]; [0; 1; 2; -1; -1; -1; 3]; [2; 3; 4; -1; -1; -1; 3]; [4; 5; -1; -1; -1; -1; 2]; [0; 1; 6; -1; -1; -1; 3]; [1; 2; 3; 6; 7; 8; 6]; [3; 4; 5; 8; 9; 10; 6]; [5; 10; 11; -1; -1; -1; 3]; [6; 7; -1; -1; -1; -1; 2]; [7; 8; 9; -1; -1; -1; 3]; [9; 10; 11; -1; -1; -1; 3]; [11; -1; -1; -1; -1; -1; 1]].
Definition px_I : pinput := {| pi_fcenter := px_fcenter; pi_cellnid := px_cellnid; pi_vertex := px_vertex; pi_nodecell := px_nodecell |}.
Definition px_ghost : list (list nodeghost) := repeat [] 12.

Example C63_example_wf : wf_periodic 12 12 px_I px_cellid px_ghost px_name px_nodename.
Proof.
  split; try reflexivity; try (cbn; lia).
  - intros f Hf. assert (H : forallb (fun f => (zlen (nthZ [] px_cellid f) =? 2) && (0 <=? nthZ 0 (nthZ [] px_cellid f) 0) && (nthZ 0 (nthZ [] px_cellid f) 0 <? 12)) (range 23) = true) by (vm_compute; reflexivity).
    pose proof (forallb_range _ _ H f Hf) as Q. cbv beta in Q. rewrite !andb_true_iff, Z.eqb_eq, Z.leb_le, Z.ltb_lt in Q. destruct Q as ((Q1 & Q2) & Q3). split; [exact Q1 | split; [exact Q2 | exact Q3]].
  - intros c Hc. assert (H : forallb (fun c => row_okb 12 (nthZ [] px_cellnid c)) (range 12) = true) by (vm_compute; reflexivity). apply row_okb_ok. apply (forallb_range _ _ H c Hc).
  - intros c Hc. assert (H : forallb (fun c => row_okb 12 (nthZ [] px_nodecell c) && (0 <? row_count (nthZ [] px_nodecell c))) (range 12) = true) by (vm_compute; reflexivity).
    pose proof (forallb_range _ _ H c Hc) as Q. cbv beta in Q. apply andb_true_iff in Q. destruct Q as (Q1 & Q2). split; [apply row_okb_ok; exact Q1 | apply Z.ltb_lt; exact Q2].
  - intros i j Hi Hj. assert (H : forallb (fun c => zlen (nthZ [] px_nodecell c) =? 7) (range 12) = true) by (vm_compute; reflexivity).
    pose proof (forallb_range _ _ H i Hi). pose proof (forallb_range _ _ H j Hj). cbv beta in *. cbn [pi_nodecell px_I]. rewrite Z.eqb_eq in *. congruence.
Qed.

Lemma px_label nm n l ls : zlen nm = n -> where_eq nm l = ls -> forall i, labelled nm l i <-> In i ls.
Proof. intros Hn <- i. unfold labelled. rewrite In_where. tauto. Qed.
Lemma F11 i : labelled px_name 11 i <-> In i [2; 14]. Proof. apply (px_label _ 23); reflexivity. Qed.
Lemma F22 i : labelled px_name 22 i <-> In i [11; 21]. Proof. apply (px_label _ 23); reflexivity. Qed.
Lemma N11 i : labelled px_nodename 11 i <-> In i [0; 4; 8]. Proof. apply (px_label _ 12); reflexivity. Qed.
Lemma N22 i : labelled px_nodename 22 i <-> In i [3; 7; 11]. Proof. apply (px_label _ 12); reflexivity. Qed.
Ltac inlist H := cbn [In] in H; repeat (destruct H as [<- | H]); try contradiction.
Ltac fac l1 l2 := split; [apply l1; cbn; tauto | split; [apply l2; cbn; tauto | split; reflexivity]].

Lemma s0 : single 0 = 0%R. Proof. apply (single_Z 0); reflexivity. Qed.
Lemma s1 : single 1 = 1%R. Proof. apply (single_Z 1); reflexivity. Qed.
Lemma s2 : single 2 = 2%R. Proof. apply (single_Z 2); reflexivity. Qed.
Lemma s3 : single 3 = 3%R. Proof. apply (single_Z 3); reflexivity. Qed.
Lemma s12 : single (1 / 2) = (1 / 2)%R. Proof. apply (single_half 1); reflexivity. Qed.
Lemma s32 : single (3 / 2) = (3 / 2)%R. Proof. apply (single_half 3); reflexivity. Qed.

Example C63_example_axis : periodic_axis single px_I px_name px_nodename AX 3.
Proof.
  split.
  - split; [intros p Hp; inlist Hp; cbn; lra | exists (P3 3 0 0); split; [cbn; tauto | reflexivity]].
  - split; [intros p Hp; inlist Hp; cbn; lra | exists (P3 3 (1/2) 0); split; [cbn; tauto | reflexivity]].
  - exact s0.
  - exact s3.
  - split.
    + intros i Hi. apply F11 in Hi. inlist Hi; [exists 11 | exists 21]; fac F11 F22.
    + intros i Hi. apply F22 in Hi. inlist Hi; [exists 2 | exists 14]; fac F11 F22.
    + intros l i j [-> | ->] Hi Hj (_ & Hy & _); cbn [low_label high_label] in *; [apply F11 in Hi, Hj | apply F22 in Hi, Hj]; inlist Hi; inlist Hj; try reflexivity; exfalso; revert Hy; lazy -[single Rdiv IZR not]; rewrite s12, s32; lra.
  - split.
    + intros i Hi. apply N11 in Hi. inlist Hi; [exists 3 | exists 7 | exists 11]; fac N11 N22.
    + intros i Hi. apply N22 in Hi. inlist Hi; [exists 0 | exists 4 | exists 8]; fac N11 N22.
    + intros l i j [-> | ->] Hi Hj (_ & Hy & _); cbn [low_label high_label] in *; [apply N11 in Hi, Hj | apply N22 in Hi, Hj]; inlist Hi; inlist Hj; try reflexivity; exfalso; revert Hy; lazy -[single Rdiv IZR not]; rewrite ?s0, ?s1, ?s2; lra.
Qed.
Example C63_example_others : forall b, In b (axes 2) -> b <> AX -> not_periodic px_name px_nodename b.
Proof. intros b Hb N. destruct b; [congruence | | cbn in Hb; intuition discriminate]. split; split; intros H; apply mem_In in H; vm_compute in H; discriminate H. Qed.

(** the run: lower left face 2 (cell 0) and lower right face 11 (cell 5) know each other's cell; the shift of cell 0 is 3, of cell 5 is -3; node 4 sees
    the cells 5, 10, 11 around node 7 *)
Theorem C65_example : exists T, update_periodic single 2 12 12 px_I px_cellid px_ghost px_name px_nodename = Ok T /\
  nthZ [] (pt_cellid T) 2 = [0; 5] /\ nthZ [] (pt_cellid T) 11 = [5; 0] /\ nthZ vzero (pt_shift T) 0 = P3 3 0 0 /\ nthZ vzero (pt_shift T) 5 = P3 (-3) 0 0 /\
  (forall c, In c (counted (nthZ [] (pt_node T) 4)) <-> c = 5 \/ c = 10 \/ c = 11).
Proof.
  pose proof C63_example_wf as WF. pose proof C63_example_axis as PA. pose proof C63_example_others as HO.
  assert (HA : forall a, In a (axes 2) -> not_periodic px_name px_nodename a \/ exists L, periodic_axis single px_I px_name px_nodename a L).
  { intros a Ha. destruct a; [right; exists 3%R; exact PA | left; apply HO; [exact Ha | discriminate] | left; apply HO; [exact Ha | discriminate]]. }
  destruct (C63_partner_cells _ 2 _ _ _ _ _ _ _ (or_introl eq_refl) WF HA) as (T & E & H1 & _).
  destruct (C64_node_cells _ 2 _ _ _ _ _ _ _ (or_introl eq_refl) WF HA) as (T' & E' & H2 & _). rewrite E in E'. injection E' as <-.
  destruct (C65_shift_x _ 2 _ _ _ _ _ _ _ 3%R (or_introl eq_refl) WF PA HO) as (T' & E' & H3).
  { intros f f' Hf Hf'. apply F11 in Hf. apply F22 in Hf'. inlist Hf; inlist Hf'; discriminate. }
  rewrite E in E'. injection E' as <-. exists T. split; [exact E|].
  destruct (H1 AX 3%R 2 11) as (A & B); [left; reflexivity | exact PA | fac F11 F22|]. split; [exact A|]. split; [exact B|].
  split; [|split].
  - apply (proj1 (H3 0 ltac:(lia))). exists 14. split; [apply F11; cbn; tauto | vm_compute; tauto].
  - apply (proj1 (proj2 (H3 5 ltac:(lia)))); [|exists 21; split; [apply F22; cbn; tauto | vm_compute; tauto]]. intros (f & Hf & Hb). apply F11 in Hf. inlist Hf; unfold beside in Hb; vm_compute in Hb; intuition discriminate.
  - destruct (H2 AX 3%R 4 7) as ((_ & K) & _); [left; reflexivity | exact PA | fac N11 N22|]. intros c. rewrite K. vm_compute (counted _). cbn [In]. intuition congruence.
Qed.
Print Assumptions C65_example.
