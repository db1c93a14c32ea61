(** * Examples_run3: meshes, conditions and states that meet the conditions of C77-C79. *)
From Coq Require Import String Reals Lra Psatz Permutation Sorted.
From Verif Require Import Py PyLemmas Model_part Spec_part Model_label Model_conn Spec_conn Proofs_conn1 Proofs_conn2 Model_geom Spec_geom Proofs_geom1 Proofs_geom2 Proofs_geom3
  Model_halo Spec_halo Model_interp Spec_interp Spec_lsq Proofs_lsq Model_fvm Spec_fvm Proofs_fvm1 Proofs_fvm2 Model_bc Spec_bc Spec_bc3 Proofs_label Proofs_bc Proofs_bc2 Proofs_bc3 Model_domain Spec_domain
  Model_comm Model_parallel Spec_parallel Proofs_parallel1 Model_run Spec_run Proofs_run1 Proofs_run2 Proofs_run3 Proofs_run4 Proofs_run5 Proofs_run6 Spec_run2 Model_run2 Proofs_run7 Proofs_run8 Proofs_run9 Proofs_run10 Proofs_run11 Proofs_run12 Proofs_run13 Proofs_run14 Proofs_run15 Spec_run3 Proofs_run16 Properties_parallel Properties_run Properties_run2.
From Verif Require Import Model_sw Proofs_sw5 Proofs_sw6 Proofs_sw7 Model_run3 Spec_run4 Proofs_run17 Proofs_run18 Proofs_run19 Proofs_run20 Proofs_run21 Proofs_run22 Proofs_run23 Proofs_run24 Proofs_run26 Proofs_run27 Proofs_run25 Proofs_run28 Proofs_run29 Spec_run5 Properties_run3.
From Verif Require Properties_geom Properties_conn Spec_sw Properties_sw Proofs_sw8 Properties_parallel.
Import Properties_geom(sq, sq_v).
Open Scope Z_scope.

(** ** Four triangles in a row of two squares, with walls all around, on one rank and on two ranks *)
Definition ch : list (list Z) := [[0; 1; 4]; [0; 4; 3]; [1; 2; 5]; [1; 5; 4]].
Definition ch_v : list pt := [P3 0 0 0; P3 1 0 0; P3 2 0 0; P3 0 1 0; P3 1 1 0; P3 2 1 0].
Definition ch_labels := [4; 4; 4; 3; 3; 3].
Definition walls : list (loc * bctype) := [(LIn, BNonslip); (LOut, BNonslip); (LUpper, BNonslip); (LBottom, BNonslip)].
Definition basin : flow := {| fl_ubc := walls; fl_uvs := []; fl_vbc := walls; fl_vvs := [] |}.
Lemma ch_wf : wf_mesh 2 (zlen ch_v) ch.
Proof. apply Properties_conn.wf_by_rows; [auto|]. repeat constructor; cbn; lia. Qed.
Lemma ch_cells c : iscell ch c -> c = 0 \/ c = 1 \/ c = 2 \/ c = 3.
Proof. unfold iscell. change (zlen ch) with 4. lia. Qed.
Lemma ch_facets c F : has_facet 2 ch c F -> In (c, F) [(0, [1; 4]); (0, [0; 4]); (0, [0; 1]); (1, [3; 4]); (1, [0; 3]); (1, [0; 4]); (2, [2; 5]); (2, [1; 5]); (2, [1; 2]); (3, [4; 5]); (3, [1; 4]); (3, [1; 5])].
Proof.
  intros HF. pose proof (proj1 HF) as Hc. apply (facets_iff 2 ch ch_v ch_wf c F Hc) in HF. destruct (ch_cells c Hc) as [-> | [-> | [-> | ->]]]; vm_compute in HF;
  repeat (destruct HF as [<-|HF]; [cbn; tauto|]); destruct HF.
Qed.
Lemma ch_facet c F : In (c, F) [(0, [1; 4]); (0, [0; 4]); (0, [0; 1]); (1, [3; 4]); (1, [0; 3]); (1, [0; 4]); (2, [2; 5]); (2, [1; 5]); (2, [1; 2]); (3, [4; 5]); (3, [1; 4]); (3, [1; 5])] -> has_facet 2 ch c F.
Proof.
  intros H. assert (Hc : iscell ch c) by (unfold iscell; change (zlen ch) with 4; cbn in H; repeat (destruct H as [H|H]; [injection H as <- _; lia|]); destruct H).
  apply (facets_iff 2 ch ch_v ch_wf c F Hc). cbn in H. repeat (destruct H as [H|H]; [injection H as <- <-; vm_compute; tauto|]). destruct H.
Qed.
Lemma ch_at : at_node ch_v 0 = P3 0 0 0 /\ at_node ch_v 1 = P3 1 0 0 /\ at_node ch_v 2 = P3 2 0 0 /\ at_node ch_v 3 = P3 0 1 0 /\ at_node ch_v 4 = P3 1 1 0 /\ at_node ch_v 5 = P3 2 1 0.
Proof. repeat split. Qed.
Ltac ch_at_all := let A0 := fresh in let A1 := fresh in let A2 := fresh in let A3 := fresh in let A4 := fresh in let A5 := fresh in destruct ch_at as (A0 & A1 & A2 & A3 & A4 & A5); rewrite ?A0, ?A1, ?A2, ?A3, ?A4, ?A5.
Lemma ch_nonflat c : iscell ch c -> nonflat 2 ch_v (cell ch c).
Proof. intros Hc. destruct (ch_cells c Hc) as [-> | [-> | [-> | ->]]]; unfold nonflat; [change (cell ch 0) with [0; 1; 4] | change (cell ch 1) with [0; 4; 3] | change (cell ch 2) with [1; 2; 5] | change (cell ch 3) with [1; 5; 4]]; cbn [map]; ch_at_all; (split; [reflexivity|]); unfold turn; cbn [px py]; lra. Qed.
Lemma ch_proper : proper 2 ch_v ch.
Proof.
  intros F a b x y Ha Hb Hne Hx HxF Hy HyF. apply ch_facets in Ha, Hb. cbn in Ha, Hb.
  repeat (destruct Ha as [Ha|Ha]; [injection Ha as <- <-; repeat (destruct Hb as [Hb|Hb]; [first [discriminate Hb | injection Hb as <-; first [exfalso; apply Hne; reflexivity |
    vm_compute in Hx, Hy; cbn in HxF, HyF; repeat (destruct Hx as [<-|Hx]; [first [exfalso; tauto | repeat (destruct Hy as [<-|Hy]; [first [exfalso; tauto | unfold side; cbn [map]; ch_at_all; unfold turn; cbn [px py]; lra]|]); destruct Hy]|]); destruct Hx]]|]); destruct Hb|]). destruct Ha.
Qed.
Theorem C77_channel_mesh : valid_mesh 2 ch ch_v ch_labels /\ planar ch_v /\ star_connected 2 ch.
Proof.
  split; [constructor|split].
  - exact ch_wf.
  - exact ch_nonflat.
  - exact ch_proper.
  - split; [reflexivity|]. intros l H. cbn in H. lia.
  - intros c F (H & _). apply ch_facets in H. cbn in H. repeat (destruct H as [H|H]; [injection H as <- <-; vm_compute; split; congruence|]). destruct H.
  - intros v Hv. cbn in Hv. repeat (destruct Hv as [<-|Hv]; [reflexivity|]). destruct Hv.
  - assert (S1 : forall g a b F, has_facet 2 ch a F -> has_facet 2 ch b F -> In g F -> around 2 ch g a b) by (intros g a b F A B G; exact (around_step 2 ch g a b b F A B G (around_refl 2 ch g b))).
    assert (S2 : forall g a b c F F', has_facet 2 ch a F -> has_facet 2 ch b F -> In g F -> has_facet 2 ch b F' -> has_facet 2 ch c F' -> In g F' -> around 2 ch g a c) by (intros g a b c F F' A B G B' C G'; exact (around_step 2 ch g a b c F A B G (S1 g b c F' B' C G'))).
    intros g a b Ha Hb Hga Hgb. destruct (Z.eq_dec a b) as [->|N]; [apply around_refl|].
    destruct (ch_cells a Ha) as [-> | [-> | [-> | ->]]], (ch_cells b Hb) as [-> | [-> | [-> | ->]]]; try (exfalso; lia); vm_compute in Hga, Hgb.
    + apply (S1 g 0 1 [0; 4]); [apply ch_facet; cbn; tauto | apply ch_facet; cbn; tauto | cbn; lia].
    + apply (S2 g 0 3 2 [1; 4] [1; 5]); [apply ch_facet; cbn; tauto | apply ch_facet; cbn; tauto | cbn; lia | apply ch_facet; cbn; tauto | apply ch_facet; cbn; tauto | cbn; lia].
    + apply (S1 g 0 3 [1; 4]); [apply ch_facet; cbn; tauto | apply ch_facet; cbn; tauto | cbn; lia].
    + apply (S1 g 1 0 [0; 4]); [apply ch_facet; cbn; tauto | apply ch_facet; cbn; tauto | cbn; lia].
    + exfalso; lia.
    + apply (S2 g 1 0 3 [0; 4] [1; 4]); [apply ch_facet; cbn; tauto | apply ch_facet; cbn; tauto | cbn; lia | apply ch_facet; cbn; tauto | apply ch_facet; cbn; tauto | cbn; lia].
    + apply (S2 g 2 3 0 [1; 5] [1; 4]); [apply ch_facet; cbn; tauto | apply ch_facet; cbn; tauto | cbn; lia | apply ch_facet; cbn; tauto | apply ch_facet; cbn; tauto | cbn; lia].
    + exfalso; lia.
    + apply (S1 g 2 3 [1; 5]); [apply ch_facet; cbn; tauto | apply ch_facet; cbn; tauto | cbn; lia].
    + apply (S1 g 3 0 [1; 4]); [apply ch_facet; cbn; tauto | apply ch_facet; cbn; tauto | cbn; lia].
    + apply (S2 g 3 0 1 [1; 4] [0; 4]); [apply ch_facet; cbn; tauto | apply ch_facet; cbn; tauto | cbn; lia | apply ch_facet; cbn; tauto | apply ch_facet; cbn; tauto | cbn; lia].
    + apply (S1 g 3 2 [1; 5]); [apply ch_facet; cbn; tauto | apply ch_facet; cbn; tauto | cbn; lia].
Qed.
(** the fits are unique *)
Lemma ch_centres : centre 2 ch ch_v 0 = P3 (2/3) (1/3) 0 /\ centre 2 ch ch_v 1 = P3 (1/3) (2/3) 0 /\ centre 2 ch ch_v 2 = P3 (5/3) (1/3) 0 /\ centre 2 ch ch_v 3 = P3 (4/3) (2/3) 0.
Proof. repeat split; unfold centre, cell_centre; [change (cell ch 0) with [0; 1; 4] | change (cell ch 1) with [0; 4; 3] | change (cell ch 2) with [1; 2; 5] | change (cell ch 3) with [1; 5; 4]]; cbn [map]; ch_at_all; unfold barycentre, vsum, vscal, vadd; cbn [fold_right length px py pz Z.eqb Pos.eqb]; f_equal; cbn; field. Qed.
Lemma ch_mirrors : reflection ch_v [0; 1] (P3 (2/3) (1/3) 0) = P3 (2/3) (-1/3) 0 /\ reflection ch_v [1; 2] (P3 (5/3) (1/3) 0) = P3 (5/3) (-1/3) 0 /\ reflection ch_v [2; 5] (P3 (5/3) (1/3) 0) = P3 (7/3) (1/3) 0 /\
  reflection ch_v [4; 5] (P3 (4/3) (2/3) 0) = P3 (4/3) (4/3) 0 /\ reflection ch_v [3; 4] (P3 (1/3) (2/3) 0) = P3 (1/3) (4/3) 0 /\ reflection ch_v [0; 3] (P3 (1/3) (2/3) 0) = P3 (-1/3) (2/3) 0.
Proof. repeat split; unfold reflection, area_vector; cbn [map hd]; ch_at_all; unfold vdot, vsub, vscal; cbn [px py pz]; f_equal; field; lra. Qed.
Theorem C77_channel_spanned : spanned 2 ch ch_v.
Proof.
  destruct ch_centres as (C0 & C1 & C2 & C3). destruct ch_mirrors as (R1 & R2 & R3 & R4 & R5 & R6).
  assert (T : touching ch 0 = [0; 1] /\ touching ch 1 = [0; 2; 3] /\ touching ch 2 = [2] /\ touching ch 3 = [1] /\ touching ch 4 = [0; 1; 3] /\ touching ch 5 = [2; 3]) by (repeat split).
  assert (B : boundary_at ch 0 = [(0, [0; 1]); (1, [0; 3])] /\ boundary_at ch 1 = [(0, [0; 1]); (2, [1; 2])] /\ boundary_at ch 2 = [(2, [2; 5]); (2, [1; 2])] /\ boundary_at ch 3 = [(1, [3; 4]); (1, [0; 3])] /\ boundary_at ch 4 = [(1, [3; 4]); (3, [4; 5])] /\ boundary_at ch 5 = [(2, [2; 5]); (3, [4; 5])]) by (repeat split).
  destruct T as (T0 & T1 & T2 & T3 & T4 & T5). destruct B as (B0 & B1 & B2 & B3 & B4 & B5).
  assert (N : neighbours ch 0 = [1; 2; 3] /\ neighbours ch 1 = [0; 3] /\ neighbours ch 2 = [0; 3] /\ neighbours ch 3 = [0; 1; 2]) by (repeat split). destruct N as (N0 & N1 & N2 & N3).
  split.
  - intros c g Hc Hg. assert (G : g = 0 \/ g = 1 \/ g = 2 \/ g = 3 \/ g = 4 \/ g = 5) by (destruct (ch_cells c Hc) as [-> | [-> | [-> | ->]]]; vm_compute in Hg; lia). unfold spans. cbn [Z.eqb Pos.eqb]. unfold node_points.
    destruct G as [-> | [-> | [-> | [-> | [-> | ->]]]]]; [rewrite T0, B0 | rewrite T1, B1 | rewrite T2, B2 | rewrite T3, B3 | rewrite T4, B4 | rewrite T5, B5]; cbn [map app fst snd]; rewrite ?C0, ?C1, ?C2, ?C3, ?R1, ?R2, ?R3, ?R4, ?R5, ?R6.
    + exists (P3 (2/3) (1/3) 0), (P3 (1/3) (2/3) 0), (P3 (2/3) (-1/3) 0). split; [cbn; auto|]. split; [cbn; auto|]. split; [cbn; auto|]. unfold turn. cbn [px py pz]. lra.
    + exists (P3 (2/3) (1/3) 0), (P3 (5/3) (1/3) 0), (P3 (4/3) (2/3) 0). split; [cbn; auto|]. split; [cbn; auto|]. split; [cbn; auto|]. unfold turn. cbn [px py pz]. lra.
    + exists (P3 (5/3) (1/3) 0), (P3 (7/3) (1/3) 0), (P3 (5/3) (-1/3) 0). split; [cbn; auto|]. split; [cbn; auto|]. split; [cbn; auto|]. unfold turn. cbn [px py pz]. lra.
    + exists (P3 (1/3) (2/3) 0), (P3 (1/3) (4/3) 0), (P3 (-1/3) (2/3) 0). split; [cbn; auto|]. split; [cbn; auto|]. split; [cbn; auto|]. unfold turn. cbn [px py pz]. lra.
    + exists (P3 (2/3) (1/3) 0), (P3 (1/3) (2/3) 0), (P3 (4/3) (2/3) 0). split; [cbn; auto|]. split; [cbn; auto|]. split; [cbn; auto|]. unfold turn. cbn [px py pz]. lra.
    + exists (P3 (5/3) (1/3) 0), (P3 (4/3) (2/3) 0), (P3 (7/3) (1/3) 0). split; [cbn; auto|]. split; [cbn; auto|]. split; [cbn; auto|]. unfold turn. cbn [px py pz]. lra.
  - intros c Hc. unfold spans_from. cbn [Z.eqb Pos.eqb]. unfold cell_points.
    destruct (ch_cells c Hc) as [-> | [-> | [-> | ->]]]; [rewrite N0; change (cell ch 0) with [0; 1; 4] | rewrite N1; change (cell ch 1) with [0; 4; 3] | rewrite N2; change (cell ch 2) with [1; 2; 5] | rewrite N3; change (cell ch 3) with [1; 5; 4]]; cbn [flat_map map app]; rewrite ?B0, ?B1, ?B2, ?B3, ?B4, ?B5; cbn [map app fst snd]; rewrite ?C0, ?C1, ?C2, ?C3, ?R1, ?R2, ?R3, ?R4, ?R5, ?R6.
    + exists (P3 (1/3) (2/3) 0), (P3 (5/3) (1/3) 0). split; [cbn; auto|]. split; [cbn; auto 6|]. unfold turn. cbn [px py pz]. lra.
    + exists (P3 (2/3) (1/3) 0), (P3 (4/3) (2/3) 0). split; [cbn; auto|]. split; [cbn; auto 6|]. unfold turn. cbn [px py pz]. lra.
    + exists (P3 (2/3) (1/3) 0), (P3 (4/3) (2/3) 0). split; [cbn; auto|]. split; [cbn; auto 6|]. unfold turn. cbn [px py pz]. lra.
    + exists (P3 (2/3) (1/3) 0), (P3 (1/3) (2/3) 0). split; [cbn; auto|]. split; [cbn; auto 6|]. unfold turn. cbn [px py pz]. lra.
Qed.
(** on one rank, and two cells for each of two ranks; there is room for the walls *)
Theorem C77_channel_splits : valid_split 2 1 ch ch_v [0; 0; 0; 0; 0; 0] [0; 0; 0; 0] /\ valid_split 2 2 ch ch_v [0; 0; 1; 0; 1; 1] [0; 0; 1; 1].
Proof.
  split.
  - constructor; [lia | | |lia].
    + split; [reflexivity|]. intros c Hc. destruct (ch_cells c Hc) as [-> | [-> | [-> | ->]]]; vm_compute; split; congruence.
    + intros _. split; [reflexivity|]. intros k Hk. change (zlen ch_v) with 6 in Hk. assert (K : k = 0 \/ k = 1 \/ k = 2 \/ k = 3 \/ k = 4 \/ k = 5) by lia.
      destruct K as [-> | [-> | [-> | [-> | [-> | ->]]]]]; [exists 0 | exists 0 | exists 2 | exists 1 | exists 0 | exists 2]; (split; [unfold iscell; cbn; lia | vm_compute; auto]).
  - constructor; [lia | | lia |].
    + split; [reflexivity|]. intros c Hc. destruct (ch_cells c Hc) as [-> | [-> | [-> | ->]]]; vm_compute; split; congruence.
    + intros _. split; [reflexivity|]. split.
      * intros c k Hc Hk. change (iscell ch c) in Hc. assert (K : k = 0 \/ k = 1 \/ k = 2 \/ k = 3 \/ k = 4 \/ k = 5) by (destruct (ch_cells c Hc) as [-> | [-> | [-> | ->]]]; vm_compute in Hk; lia).
        destruct K as [-> | [-> | [-> | [-> | [-> | ->]]]]]; [exists 0 | exists 0 | exists 2 | exists 1 | exists 3 | exists 2]; (split; [split; [lia | reflexivity] | split; [vm_compute; tauto | reflexivity]]).
      * intros r Hr. assert (R : r = 0 \/ r = 1) by lia. destruct R as [-> | ->]; [exists 0, 3, [1; 4] | exists 3, 0, [1; 4]]; (split; [apply ch_facet; cbn; tauto|]); (split; [apply ch_facet; cbn; tauto|]); vm_compute; split; congruence.
Qed.
Theorem C77_channel_room : room ch [0; 0; 1; 1] 2.
Proof.
  intros r Hr. assert (R : r = 0 \/ r = 1) by lia. exists (fun e => fst (fst e)).
  assert (BF : boundary_facets ch = [(0, [0; 1]); (1, [3; 4]); (1, [0; 3]); (2, [2; 5]); (2, [1; 2]); (3, [4; 5])]) by reflexivity.
  assert (ON : forall k c, iscell ch c -> owner [0; 0; 1; 1] c = k -> k = 0 -> c = 0 \/ c = 1) by (intros k c Hc Ho ->; destruct (ch_cells c Hc) as [-> | [-> | [-> | ->]]]; vm_compute in Ho; lia).
  assert (ON1 : forall k c, iscell ch c -> owner [0; 0; 1; 1] c = k -> k = 1 -> c = 2 \/ c = 3) by (intros k c Hc Ho ->; destruct (ch_cells c Hc) as [-> | [-> | [-> | ->]]]; vm_compute in Ho; lia).
  assert (WE : forall c F g, wall_end ch [0; 0; 1; 1] r (c, F, g) -> (r = 0 /\ (c = 2 /\ F = [1; 2] /\ g = 1 \/ c = 3 /\ F = [4; 5] /\ g = 4)) \/ (r = 1 /\ (c = 0 /\ F = [0; 1] /\ g = 1 \/ c = 1 /\ F = [3; 4] /\ g = 4))).
  { intros c F g (HB & HG & HO & c' & Hc' & HO' & HG'). rewrite BF in HB. destruct R as [-> | ->].
    - left. split; [reflexivity|]. assert (G : g = 0 \/ g = 1 \/ g = 3 \/ g = 4) by (destruct (ON 0 c' Hc' HO' eq_refl) as [-> | ->]; vm_compute in HG'; lia).
      cbn in HB. destruct HB as [HB|[HB|[HB|[HB|[HB|[HB|[]]]]]]]; injection HB as <- <-; try (exfalso; vm_compute in HO; congruence); cbn in HG; [exfalso; lia | left | right]; (split; [reflexivity|]); (split; [reflexivity|]); lia.
    - right. split; [reflexivity|]. assert (G : g = 1 \/ g = 2 \/ g = 4 \/ g = 5) by (destruct (ON1 1 c' Hc' HO' eq_refl) as [-> | ->]; vm_compute in HG'; lia).
      cbn in HB. destruct HB as [HB|[HB|[HB|[HB|[HB|[HB|[]]]]]]]; injection HB as <- <-; try (exfalso; vm_compute in HO; congruence); cbn in HG; [left | right | exfalso; lia]; (split; [reflexivity|]); (split; [reflexivity|]); lia. }
  split.
  - intros ((c, F), g) HE. apply WE in HE. cbn [fst]. destruct HE as [(-> & [(-> & _)|(-> & _)])|(-> & [(-> & _)|(-> & _)])]; (split; [unfold iscell; change (zlen ch) with 4; lia|]); (split; [vm_compute; congruence|]).
    + exists 0. split; [unfold iscell; change (zlen ch) with 4; lia|]. split; [reflexivity|]. exists 1. split; vm_compute; tauto.
    + exists 0. split; [unfold iscell; change (zlen ch) with 4; lia|]. split; [reflexivity|]. exists 4. split; vm_compute; tauto.
    + exists 2. split; [unfold iscell; change (zlen ch) with 4; lia|]. split; [reflexivity|]. exists 1. split; vm_compute; tauto.
    + exists 3. split; [unfold iscell; change (zlen ch) with 4; lia|]. split; [reflexivity|]. exists 4. split; vm_compute; tauto.
  - intros ((c, F), g) ((c', F'), g') HE HE' E. apply WE in HE, HE'. cbn [fst] in E. subst c'.
    destruct HE as [(-> & [(-> & -> & ->)|(-> & -> & ->)])|(-> & [(-> & -> & ->)|(-> & -> & ->)])], HE' as [(X & [(Y & -> & ->)|(Y & -> & ->)])|(X & [(Y & -> & ->)|(Y & -> & ->)])]; try (exfalso; lia); reflexivity.
Qed.
Lemma walls_flow : flow_bc walls [].
Proof.
  split; [repeat constructor; cbn; intuition discriminate|]. split; [intros l t H; cbn in H; destruct H as [H|[H|[H|[H|[]]]]]; injection H as <- <-; (split; [cbn; tauto | tauto])|].
  split; [intros l H; cbn in H |- *; tauto|]. split.
  - cbn. intuition discriminate.
  - intros l H. exfalso. cbn in H. intuition discriminate.
Qed.

Theorem C77_channel : sw_regular 1 ch ch_v ch_labels [0; 0; 0; 0; 0; 0] [0; 0; 0; 0] basin /\ sw_regular 2 ch ch_v ch_labels [0; 0; 1; 0; 1; 1] [0; 0; 1; 1] basin.
Proof.
  destruct C77_channel_mesh as (VM & PL & SC). destruct C77_channel_splits as (V1 & V2).
  split; constructor; [exact VM | exact PL | exact SC | exact C77_channel_spanned | exact V1 | exact walls_flow | exact walls_flow | right | exact VM | exact PL | exact SC | exact C77_channel_spanned | exact V2 | exact walls_flow | exact walls_flow | right; exact C77_channel_room].
  intros r Hr. exists (fun _ => 0). split; [intros ((c, F), g) (HB & _ & HO & _) | intros ((c, F), g) e' (HB & _ & HO & _)]; exfalso; apply HO; assert (E : r = 0) by lia; subst r;
    change (boundary_facets ch) with [(0, [0; 1]); (1, [3; 4]); (1, [0; 3]); (2, [2; 5]); (2, [1; 2]); (3, [4; 5])] in HB; cbn in HB; repeat (destruct HB as [HB|HB]; [injection HB as <- <-; reflexivity|]); destruct HB.
Qed.
(** the square of C68 without conditions for hu and hv, on one and on two ranks *)
Theorem C77_square : sw_regular 1 sq sq_v [4; 4; 3; 3] [0; 0; 0; 0] [0; 0] without_conditions /\ sw_regular 2 sq sq_v [4; 4; 3; 3] [0; 0; 1; 1] [0; 1] without_conditions.
Proof.
  destruct C70_square as ([VM PL SC SP V1 _ _] & [_ _ _ _ V2 _ _]).
  assert (NW : (forall l, ~ In (l, BNonslip) free /\ ~ In (l, BNonslip) free)) by (intros l; cbn; split; intuition discriminate).
  split; constructor; [exact VM | exact (PL eq_refl) | exact SC | exact SP | exact V1 | exact free_flow | exact free_flow | left; exact NW | exact VM | exact (PL eq_refl) | exact SC | exact SP | exact V2 | exact free_flow | exact free_flow | left; exact NW].
Qed.
(** any state can be given to the ranks *)
Theorem C77_any_state : forall f32 SIZE cells nodes labels npart0 epart B W, sw_regular SIZE cells nodes labels npart0 epart B -> exists st w0, setup f32 2 SIZE cells nodes labels npart0 epart = Ok st /\ values_of q5_zero SIZE (se_domains st) W w0.
Proof.
  intros f32 SIZE cells nodes labels npart0 epart B W RG. sw_setup f32 RG st ES RP CS HX RU RV. exists st.
  exists (map (fun r => map (fun c => W (gcell (domain_of (se_domains st) r) c)) (range (zlen (dm_loctoglob (domain_of (se_domains st) r))))) (range SIZE)). split; [exact ES|]. pose proof (vs_size _ _ _ _ _ _ VS) as S1.
  split; [rewrite zlen_map, zlen_range; lia|]. intros r Hr. rewrite (nthZ_map _ 0) by (rewrite zlen_range; lia). rewrite nthZ_range by lia. pose proof (zlen_nonneg (dm_loctoglob (domain_of (se_domains st) r))). split; [rewrite zlen_map, zlen_range; lia|].
  intros c Hc. unfold iscell_of in Hc. rewrite (nthZ_map _ 0) by (rewrite zlen_range; lia). rewrite nthZ_range by lia. reflexivity.
Qed.
Definition all_on (Dx Dy Mann fc : R) : swcoef := {| co_terms := ["source"; "dissipation"; "coriolis"; "friction"; "convective"]%string; co_Dx := Dx; co_Dy := Dy; co_Mann := Mann; co_fc := fc |}.
Lemma all_on_complete Dx Dy Mann fc : complete_terms (all_on Dx Dy Mann fc).
Proof. intros t Ht. cbn in Ht |- *. tauto. Qed.
(** a lake with two steps in its bottom and a tracer in one half, on the channel with walls and two ranks: it stays, the tracer spreads, and its amount is kept *)
Definition stepped_lake (c : Z) : q5 := if c <=? 1 then {| q_h := 2; q_hu := 0; q_hv := 0; q_hc := 1; q_Z := 0 |} else {| q_h := 1; q_hu := 0; q_hv := 0; q_hc := 0; q_Z := 1 |}.
Theorem C79_channel_lake : forall f32 cfl tfinal, (0 < cfl)%R -> exists st w0, setup f32 2 2 ch ch_v ch_labels [0; 0; 1; 0; 1; 1] [0; 0; 1; 1] = Ok st /\ values_of q5_zero 2 (se_domains st) stepped_lake w0 /\
  exists n t s V, (tfinal <= t)%R /\ sw_program n (Some ((walls, []), (walls, []))) 1 (all_on 1 1 (1/10) (1/1000)) cfl tfinal 2 st w0 = Ok (Some (t, s)) /\ held 2 st V s /\
    (forall c, iscell ch c -> q_h (V c) = q_h (stepped_lake c) /\ q_hu (V c) = 0%R /\ q_hv (V c) = 0%R) /\ amount ch ch_v q_hc V = amount ch ch_v q_hc stepped_lake.
Proof.
  intros f32 cfl tfinal HC. destruct (C77_any_state f32 2 ch ch_v ch_labels _ _ basin stepped_lake (proj2 C77_channel)) as (st & w0 & E & HV). exists st, w0. split; [exact E|]. split; [exact HV|].
  assert (ND : forall l t, In (l, t) (fl_ubc basin) \/ In (l, t) (fl_vbc basin) -> t = BNonslip) by (intros l t H; cbn in H; intuition congruence).
  assert (HD : (0 <= co_Dx (all_on 1 1 (1/10) (1/1000)) + co_Dy (all_on 1 1 (1/10) (1/1000)))%R) by (cbn; lra).
  destruct (C79_lake f32 2 ch ch_v ch_labels _ _ basin 1 (all_on 1 1 (1/10) (1/1000)) cfl 2 (proj2 C77_channel) HC HD (all_on_complete _ _ _ _) ltac:(lia)) as (st1 & E1 & R1); [intros l t H; rewrite (ND l t H); discriminate|]. rewrite E in E1. injection E1 as <-.
  destruct (C79_closed_basin f32 2 ch ch_v ch_labels _ _ basin 1 (all_on 1 1 (1/10) (1/1000)) cfl (proj2 C77_channel) HC HD ND ltac:(lia)) as (st2 & E2 & R2). rewrite E in E2. injection E2 as <-.
  destruct (R1 (Some ((walls, []), (walls, []))) stepped_lake w0 tfinal (or_introl eq_refl) HV) as (n & t & TF & R).
  { intros c Hc. unfold stepped_lake. destruct (c <=? 1); cbn; lra. }
  destruct (R n (le_n n)) as (s & V & EP & HH & SL). exists n, t, s, V. split; [exact TF|]. split; [exact EP|]. split; [exact HH|]. split; [intros c Hc; destruct (SL c Hc) as (A & B & C & _); auto|].
  destruct (R2 (Some ((walls, []), (walls, []))) stepped_lake w0 n tfinal t s (or_introl eq_refl) HV EP) as (V' & HH' & _ & AM). rewrite <- (AM eq_refl). unfold amount. f_equal. apply map_ext_in. intros c Hc. apply in_range in Hc. f_equal.
  destruct (C77_held_unique f32 _ _ _ _ _ _ _ (proj2 C77_channel)) as (st' & E' & U). rewrite E in E'. injection E' as <-. rewrite (U V V' s HH HH' c Hc). reflexivity.
Qed.
(** *** Water that moves: a dam between the two halves of the channel, taken away at the start; walls, two ranks *)
Lemma still_flux l r n m : Spec_sw.measures n m -> (1/2 <= q_h l)%R -> (1/2 <= q_h r)%R -> q_hu l = 0%R -> q_hv l = 0%R -> q_hu r = 0%R -> q_hv r = 0%R ->
  exists F, srnh_scheme l r n m g981 = Some F /\ q_h F = (Spec_sw.celerity g981 l r * m * ((q_h l + q_Z l) - (q_h r + q_Z r)) / 2)%R.
Proof.
  intros M Hl Hr A B C D. apply Properties_sw.C45_still_water; [unfold g981; lra | exact M | unfold Spec_sw.wet; lra | unfold Spec_sw.wet; lra | exact A | exact B | exact C | exact D|].
  unfold Spec_sw.celerity. apply Rle_trans with 1%R; [lra|]. rewrite <- sqrt_1. apply sqrt_le_1_alt. unfold g981. lra.
Qed.
Definition dam (c : Z) : q5 := if c <=? 1 then {| q_h := 2; q_hu := 0; q_hv := 0; q_hc := 1; q_Z := 0 |} else {| q_h := 1; q_hu := 0; q_hv := 0; q_hc := 0; q_Z := 0 |}.
Lemma dam_ok c : (1 <= q_h (dam c))%R /\ q_hu (dam c) = 0%R /\ q_hv (dam c) = 0%R.
Proof. unfold dam. destruct (c <=? 1); cbn; (split; [lra | auto]). Qed.
Lemma wall_value nodes labels F : flow_value nodes labels walls [] F 0 = 0%R.
Proof.
  assert (AW : forall l t, In (l, t) walls -> t = BNonslip) by (intros l t H; cbn in H; intuition congruence).
  unfold flow_value, boundary_value. destruct (find _ walls) as [(l, t)|] eqn:EF; [|reflexivity]. apply find_some in EF as (HI & _). rewrite (AW l t HI). ring.
Qed.
Lemma still_outside nodes labels cells W c F : (forall c, q_hu (W c) = 0%R /\ q_hv (W c) = 0%R) -> q_hu (outside cells nodes labels basin W c F) = 0%R /\ q_hv (outside cells nodes labels basin W c F) = 0%R.
Proof. intros H. unfold outside. destruct (beside cells c F) as [d|]; [apply H|]. cbn [q_hu q_hv basin fl_ubc fl_uvs fl_vbc fl_vvs]. destruct (H c) as (-> & ->). rewrite wall_value. auto. Qed.
Theorem C77_channel_dam : forall Dx Dy Mann fc, (0 <= Dx + Dy)%R -> let co := all_on Dx Dy Mann fc in
  exists cfl0, (0 < cfl0)%R /\ forall cfl, (0 < cfl <= cfl0)%R -> exists dt V, (0 < dt)%R /\ sw_step ch ch_v ch_labels basin 1 (coefficients co) dt dam V /\ (forall c, iscell ch c -> (0 < q_h (V c))%R) /\
    amount ch ch_v q_h V = amount ch ch_v q_h dam /\
    forall f32, exists st, setup f32 2 2 ch ch_v ch_labels [0; 0; 1; 0; 1; 1] [0; 0; 1; 1] = Ok st /\
    forall w0, values_of q5_zero 2 (se_domains st) dam w0 -> exists s, sw_program 1 (Some ((walls, []), (walls, []))) 1 co cfl dt 2 st w0 = Ok (Some (dt, s)) /\ held 2 st V s.
Proof.
  intros Dx Dy Mann fc HD co. pose proof (proj2 C77_channel) as RG. pose proof (sr_mesh _ _ _ _ _ _ _ RG) as VM.
  destruct (C77_first_step 2 ch ch_v ch_labels _ _ basin 1 co dam RG HD (all_on_complete _ _ _ _)) as (cfl0 & P0 & R).
  - intros c Hc. destruct (dam_ok c) as (A & B & C). split; [lra | auto].
  - intros S T P _ c F HF. unfold flux, at_facet. cbn [Z.eqb Pos.eqb]. pose proof (outward_measures ch ch_v ch_labels c F VM HF) as MM. cbv zeta in MM.
    assert (ST : forall w, (exists d, w = dam d) \/ w = outside ch ch_v ch_labels basin dam c F -> (1/2 <= q_h w)%R /\ q_hu w = 0%R /\ q_hv w = 0%R).
    { intros w [(d & ->) | ->]; [destruct (dam_ok d) as (A & B & C); split; [lra | auto]|]. split; [|apply still_outside; intros d; exact (proj2 (dam_ok d))].
      unfold outside. destruct (beside ch c F) as [d|]; cbn [q_h]; [destruct (dam_ok d) | destruct (dam_ok c)]; lra. }
    assert (SR : exists r, r = match beside ch c F with Some d => dam d | None => outside ch ch_v ch_labels basin dam c F end /\ ((exists d, r = dam d) \/ r = outside ch ch_v ch_labels basin dam c F)) by (destruct (beside ch c F) as [d|]; eexists; (split; [reflexivity|]); eauto).
    destruct SR as (r & <- & HR). destruct (ST (dam c) (or_introl (ex_intro _ c eq_refl))) as (L1 & L2 & L3). destruct (ST r HR) as (R1 & R2 & R3).
    destruct (still_flux (dam c) r _ _ MM L1 R1 L2 L3 R2 R3) as (X & EX & _). rewrite EX. discriminate.
  - exists cfl0. split; [exact P0|]. intros cfl HC. destruct (R cfl HC) as (dt & V & DP & LG & SV & VW & RUN). exists dt, V. split; [exact DP|]. split; [exact SV|]. split; [exact VW|]. split.
    + destruct (C77_any_state (fun x => x) _ _ _ _ _ _ _ dam RG) as (st & w0 & ES & HV). destruct (RUN (fun x => x)) as (st' & ES' & R'). rewrite ES in ES'. injection ES' as <-. destruct (R' _ w0 (or_introl eq_refl) HV) as (s & EP & HH).
      assert (AW : all_walls basin) by (intros l t H; cbn in H; intuition congruence).
      destruct (C79_closed_basin (fun x => x) 2 ch ch_v ch_labels _ _ basin 1 co cfl RG (proj1 HC) HD AW ltac:(lia)) as (st2 & E2 & R2). rewrite ES in E2. injection E2 as <-.
      destruct (R2 _ dam w0 1%nat dt dt s (or_introl eq_refl) HV EP) as (V' & HH' & AM & _). rewrite <- AM. destruct (C77_held_unique (fun x => x) _ _ _ _ _ _ _ RG) as (st3 & E3 & U). rewrite ES in E3. injection E3 as <-.
      unfold amount. f_equal. apply map_ext_in. intros c Hc. apply in_range in Hc. rewrite (U V V' s HH HH' c Hc). reflexivity.
    + intros f32. destruct (RUN f32) as (st & ES & R'). exists st. split; [exact ES|]. intros w0 HV. exact (R' _ w0 (or_introl eq_refl) HV).
Qed.
(** *** A stream through the square without walls, on two ranks, second order *)
Lemma subcritical cells nodes labels c F u v a : valid_mesh 2 cells nodes labels -> has_facet 2 cells c F -> (u ^ 2 + v ^ 2 < a)%R -> let n := outward cells nodes c F in Rabs ((u * px n + v * py n) / sqrt (vdot n n)) <> sqrt a.
Proof.
  intros VM HF H n E. pose proof (outward_measures cells nodes labels c F VM HF) as (MP & MS). fold n in MP, MS. set (m := sqrt (vdot n n)) in *.
  assert (A0 : (0 <= a)%R) by nra. apply (f_equal (fun x => x * x)%R) in E. rewrite (sqrt_sqrt a A0) in E. rewrite <- Rabs_mult in E. rewrite Rabs_pos_eq in E by apply Rle_0_sqr.
  assert (X : ((u * px n + v * py n) * (u * px n + v * py n) <= (u ^ 2 + v ^ 2) * m ^ 2)%R) by (rewrite MS; pose proof (Rle_0_sqr (u * py n - v * px n)); unfold Rsqr in *; nra).
  assert (Y : ((u * px n + v * py n) * (u * px n + v * py n) = a * m ^ 2)%R) by (rewrite <- E; field; lra). pose proof (pow_lt m 2 MP). nra.
Qed.
Theorem C79_square_stream : forall f32 cfl tfinal, (0 < cfl)%R -> let w := {| q_h := 1; q_hu := 1; q_hv := 1/2; q_hc := 3; q_Z := 0 |} in
  exists st w0, setup f32 2 2 sq sq_v [4; 4; 3; 3] [0; 0; 1; 1] [0; 1] = Ok st /\ values_of q5_zero 2 (se_domains st) (fun _ => w) w0 /\
  exists n t s, (tfinal <= t)%R /\ sw_program n None 2 (all_on 1 1 0 0) cfl tfinal 2 st w0 = Ok (Some (t, s)) /\ held 2 st (fun _ => w) s.
Proof.
  intros f32 cfl tfinal HC w. pose proof (proj2 C77_square) as RG. pose proof (sr_mesh _ _ _ _ _ _ _ RG) as VM. destruct (C77_any_state f32 _ _ _ _ _ _ _ (fun _ => w) RG) as (st & w0 & E & HV). exists st, w0. split; [exact E|]. split; [exact HV|].
  destruct (C79_uniform_flow f32 2 sq sq_v [4; 4; 3; 3] _ _ without_conditions 2 (all_on 1 1 0 0) cfl w RG HC ltac:(cbn; lra) (all_on_complete _ _ _ _) eq_refl eq_refl ltac:(cbn; lra)) as (st' & E' & R).
  - intros c F _. cbn [without_conditions fl_ubc fl_uvs fl_vbc fl_vvs]. rewrite !free_flow_value. auto.
  - intros c F HF. apply (subcritical sq sq_v [4; 4; 3; 3] c F _ _ _ VM HF). cbn. unfold g981. lra.
  - rewrite E in E'. injection E' as <-. destruct (R None w0 tfinal (or_intror (conj eq_refl eq_refl)) HV) as (n & t & TF & RR). destruct (RR n (le_n n)) as (s & EP & HH). exists n, t, s. auto.
Qed.
(** *** Walls leak at second order (the reconstruction changes the depth inside the wall only, see C79_closed_basin for the first order).
    The square on one rank with walls, the water 1 deep in one triangle and 2 deep in the other, no tracer. *)
Lemma room_alone cells epart : (forall c, iscell cells c -> owner epart c = 0) -> room cells epart 1.
Proof.
  intros H r Hr. exists (fun _ => 0).
  assert (X : forall e, ~ wall_end cells epart r e). { intros ((c, F), g) (HB & _ & HO & _). apply HO. assert (E : r = 0) by lia. subst r. unfold boundary_facets in HB. apply in_flat_map in HB as (d & Hd & HB). apply in_map_iff in HB as (F' & E & _). injection E as -> ->. apply H. apply in_range. exact Hd. }
  split; [intros e HE | intros e e' HE]; destruct (X e HE).
Qed.
Theorem C79_walled_square : sw_regular 1 sq sq_v [4; 4; 3; 3] [0; 0; 0; 0] [0; 0] basin.
Proof.
  destruct C77_square as ([VM PL SC SP V1 _ _ _] & _). constructor; [exact VM | exact PL | exact SC | exact SP | exact V1 | exact walls_flow | exact walls_flow | right; apply room_alone].
  intros c Hc. unfold iscell in Hc. change (zlen sq) with 2 in Hc. assert (C : c = 0 \/ c = 1) by lia. destruct C as [-> | ->]; reflexivity.
Qed.
Definition tilted (z : R) (c : Z) : q5 := if c =? 0 then {| q_h := 1; q_hu := 0; q_hv := 0; q_hc := 0; q_Z := z |} else {| q_h := 2; q_hu := 0; q_hv := 0; q_hc := 0; q_Z := 0 |}.
Lemma tilted_slopes z : cell_slope 2 sq sq_v [4; 4; 3; 3] free [] (fun c => q_h (tilted z c)) 0 (P3 (-15/26) (15/26) 0) /\ cell_slope 2 sq sq_v [4; 4; 3; 3] free [] (fun c => q_h (tilted z c)) 1 (P3 (-15/26) (15/26) 0).
Proof.
  destruct sq_centres as (C0 & C1). destruct sq_mirrors as (R1 & R2 & R3 & R4).
  assert (B : boundary_at sq 0 = [(0, [0; 1]); (1, [0; 3])] /\ boundary_at sq 1 = [(0, [1; 2]); (0, [0; 1])] /\ boundary_at sq 2 = [(0, [1; 2]); (1, [2; 3])] /\ boundary_at sq 3 = [(1, [2; 3]); (1, [0; 3])]) by (repeat split). destruct B as (B0 & B1 & B2 & B3).
  assert (N0 : neighbours sq 0 = [1] /\ neighbours sq 1 = [0]) by (split; reflexivity). destruct N0 as (N0 & N1).
  assert (BV : forall F x, boundary_value 2 sq_v [4; 4; 3; 3] free [] F x = x). { intros F x. unfold boundary_value. destruct (find _ free) as [(l, t)|] eqn:EF; [|reflexivity]. apply find_some in EF as (HI & _). unfold free in HI. apply in_map_iff in HI as (l' & E' & _). injection E' as _ <-. reflexivity. }
  assert (A0 : around_cell 2 sq sq_v [4; 4; 3; 3] free [] (fun c => q_h (tilted z c)) 0 = [(P3 (1/3) (2/3) 0, 2%R); (P3 (2/3) (-1/3) 0, 1%R); (P3 (-1/3) (2/3) 0, 2%R); (P3 (4/3) (1/3) 0, 1%R); (P3 (2/3) (-1/3) 0, 1%R); (P3 (4/3) (1/3) 0, 1%R); (P3 (1/3) (4/3) 0, 2%R)]).
  { unfold around_cell. rewrite N0. change (cell sq 0) with [0; 1; 2]. cbn [flat_map map app]. rewrite B0, B1, B2. unfold sample, Spec_run2.mirrored. cbn [map app fst snd]. rewrite !BV, C0, C1, R1, R2, R3, R4. reflexivity. }
  assert (A1 : around_cell 2 sq sq_v [4; 4; 3; 3] free [] (fun c => q_h (tilted z c)) 1 = [(P3 (2/3) (1/3) 0, 1%R); (P3 (2/3) (-1/3) 0, 1%R); (P3 (-1/3) (2/3) 0, 2%R); (P3 (1/3) (4/3) 0, 2%R); (P3 (-1/3) (2/3) 0, 2%R); (P3 (4/3) (1/3) 0, 1%R); (P3 (1/3) (4/3) 0, 2%R)]).
  { unfold around_cell. rewrite N1. change (cell sq 1) with [0; 3; 2]. cbn [flat_map map app]. rewrite B0, B2, B3. unfold sample, Spec_run2.mirrored. cbn [map app fst snd]. rewrite !BV, C0, C1, R1, R2, R3, R4. reflexivity. }
  unfold cell_slope. rewrite A0, A1, C0, C1. change (q_h (tilted z 0)) with 1%R. change (q_h (tilted z 1)) with 2%R.
  split; (split; [intros _; reflexivity|]); split; intros [gx gy gz] HG; specialize (HG eq_refl); cbn [pz] in HG; subst gz; unfold misfit_from, rsum, vdot, vsub; cbn [map fold_right fst snd px py pz];
    set (u := (gx + 15/26)%R); set (v := (gy - 15/26)%R); replace gx with (u - 15/26)%R by (unfold u; ring); replace gy with (v + 15/26)%R by (unfold v; ring); clearbody u v; clear gx gy;
    pose proof (Rle_0_sqr u) as Q1; pose proof (Rle_0_sqr v) as Q2; pose proof (Rle_0_sqr (u - v)) as Q3; pose proof (Rle_0_sqr (3 * u - v)) as Q4; pose proof (Rle_0_sqr (u - 3 * v)) as Q5; unfold Rsqr in *.
  - lra.
  - intros LE. assert (u * u = 0 /\ v * v = 0)%R as (U & V) by (split; lra). apply Rmult_integral in U, V. assert (u = 0)%R by tauto. assert (v = 0)%R by tauto. subst u v. f_equal; lra.
  - lra.
  - intros LE. assert (u * u = 0 /\ v * v = 0)%R as (U & V) by (split; lra). apply Rmult_integral in U, V. assert (u = 0)%R by tauto. assert (v = 0)%R by tauto. subst u v. f_equal; lra.
Qed.
Lemma tilted_at z S T P : slopes sq sq_v [4; 4; 3; 3] 2 (tilted z) S T P -> forall c F, iscell sq c -> let w := at_facet sq sq_v 2 (tilted z) S T P c F in q_h w = (q_h (tilted z c) + vdot (P3 (-15/26) (15/26) 0) (vsub (facet_centre sq_v F) (centre 2 sq sq_v c)))%R /\ q_hu w = 0%R /\ q_hv w = 0%R /\ q_Z w = q_Z (tilted z c).
Proof.
  intros HS c F Hc w. pose proof (proj1 C77_square) as RG. pose proof (sr_mesh _ _ _ _ _ _ _ RG) as VM. destruct (HS eq_refl c Hc) as (H1 & H2 & H3). destruct (tilted_slopes z) as (S0 & S1).
  assert (C : c = 0 \/ c = 1) by (unfold iscell in Hc; change (zlen sq) with 2 in Hc; lia).
  assert (ES : S c = P3 (-15/26) (15/26) 0) by (destruct C as [-> | ->]; [exact (best_slope_unique _ _ _ _ _ _ S0 H1) | exact (best_slope_unique _ _ _ _ _ _ S1 H1)]).
  assert (ET : T c = vzero). { apply (const_slope sq sq_v [4; 4; 3; 3] VM (fun c => q_hc (tilted z c)) 0%R) with (c := c); [|exact Hc | exact H2]. intros d _. unfold tilted. destruct (d =? 0); reflexivity. }
  assert (EP : P c = 1%R).
  { destruct H3 as ((LE & _) & MX). apply Rle_antisym; [exact LE|]. apply MX. split; [lra|]. intros F' _ TH. exfalso. unfold rise in TH. rewrite ET in TH. unfold vdot, vzero in TH. cbn [px py pz] in TH. rewrite !Rmult_0_l, !Rplus_0_l, Rabs_R0 in TH. unfold threshold in TH. cbn [Z.eqb Pos.eqb] in TH. lra. }
  unfold w, at_facet. cbn [Z.eqb Pos.eqb q_h q_hu q_hv q_Z]. unfold reconstructed, rise. rewrite ES, EP. split; [change (IZR (2 - 1)) with 1%R; ring|]. unfold tilted. destruct (c =? 0); cbn; auto.
Qed.
Lemma sq_middles : facet_centre sq_v [0; 1] = P3 (1/2) 0 0 /\ facet_centre sq_v [1; 2] = P3 1 (1/2) 0 /\ facet_centre sq_v [2; 3] = P3 (1/2) 1 0 /\ facet_centre sq_v [0; 3] = P3 0 (1/2) 0 /\ facet_centre sq_v [0; 2] = P3 (1/2) (1/2) 0.
Proof. repeat split; unfold facet_centre; cbn [map]; destruct sq_at as (A0 & A1 & A2 & A3); rewrite ?A0, ?A1, ?A2, ?A3; unfold barycentre, vsum, vscal, vadd; cbn [fold_right length px py pz Z.eqb Pos.eqb]; f_equal; cbn; field. Qed.
Lemma tilted_depth z S T P : slopes sq sq_v [4; 4; 3; 3] 2 (tilted z) S T P -> forall c F, has_facet 2 sq c F ->
  q_h (at_facet sq sq_v 2 (tilted z) S T P c F) = if c =? 0 then if list_eq_dec Z.eq_dec F [0; 2] then (31/26)%R else (47/52)%R else if list_eq_dec Z.eq_dec F [0; 2] then (47/26)%R else (109/52)%R.
Proof.
  intros HS c F HF. destruct (tilted_at z S T P HS c F (proj1 HF)) as (-> & _). destruct sq_centres as (C0 & C1). destruct sq_middles as (M1 & M2 & M3 & M4 & M5).
  pose proof (proj1 HF) as Hc. assert (C : c = 0 \/ c = 1) by (unfold iscell in Hc; change (zlen sq) with 2 in Hc; lia). apply (facets_iff 2 sq sq_v Properties_geom.sq_wf c F Hc) in HF.
  destruct C as [-> | ->]; vm_compute in HF; destruct HF as [<-|[<-|[<-|[]]]]; rewrite ?C0, ?C1, ?M1, ?M2, ?M3, ?M4, ?M5; cbn [Z.eqb]; unfold tilted, vdot, vsub; cbn [Z.eqb q_h px py pz];
    match goal with |- context [list_eq_dec Z.eq_dec ?a ?b] => destruct (list_eq_dec Z.eq_dec a b); [first [discriminate | lra] | first [congruence | lra]] end.
Qed.
Theorem C79_second_order_walls_refuted : forall z Dx Dy Mann fc, (0 <= Dx + Dy)%R -> let co := all_on Dx Dy Mann fc in
  exists cfl0, (0 < cfl0)%R /\ forall cfl, (0 < cfl <= cfl0)%R -> exists dt V, (0 < dt)%R /\ sw_step sq sq_v [4; 4; 3; 3] basin 2 (coefficients co) dt (tilted z) V /\
    (amount sq sq_v q_h V < amount sq sq_v q_h (tilted z))%R /\
    forall f32, exists st, setup f32 2 1 sq sq_v [4; 4; 3; 3] [0; 0; 0; 0] [0; 0] = Ok st /\
    forall w0, values_of q5_zero 1 (se_domains st) (tilted z) w0 -> exists s, sw_program 1 (Some ((walls, []), (walls, []))) 2 co cfl dt 1 st w0 = Ok (Some (dt, s)) /\ held 1 st V s.
Proof.
  intros z Dx Dy Mann fc HD co. pose proof C79_walled_square as RG. pose proof (sr_mesh _ _ _ _ _ _ _ RG) as VM.
  assert (TI : forall c, (1 <= q_h (tilted z c))%R /\ q_hu (tilted z c) = 0%R /\ q_hv (tilted z c) = 0%R /\ True) by (intros c; unfold tilted; destruct (c =? 0); cbn; (split; [lra | auto])).
  (* depth, flow and bottom on both sides of a facet *)
  assert (IN : forall S T P, slopes sq sq_v [4; 4; 3; 3] 2 (tilted z) S T P -> forall c F, has_facet 2 sq c F -> let w := at_facet sq sq_v 2 (tilted z) S T P c F in (1/2 <= q_h w)%R /\ q_hu w = 0%R /\ q_hv w = 0%R /\ q_Z w = q_Z (tilted z c)).
  { intros S T P HS c F HF w. destruct (tilted_at z S T P HS c F (proj1 HF)) as (_ & A). fold w in A. split; [|exact A]. unfold w. rewrite (tilted_depth z S T P HS c F HF). destruct (c =? 0), (list_eq_dec Z.eq_dec F [0; 2]); lra. }
  assert (OUT : forall c F, let w := outside sq sq_v [4; 4; 3; 3] basin (tilted z) c F in (1/2 <= q_h w)%R /\ q_hu w = 0%R /\ q_hv w = 0%R).
  { intros c F w. unfold w. split; [|apply still_outside; intros d; split; apply TI]. unfold outside. destruct (beside sq c F) as [d|]; cbn [q_h]; [destruct (TI d) | destruct (TI c)]; lra. }
  destruct (C77_first_step 1 sq sq_v [4; 4; 3; 3] _ _ basin 2 co (tilted z) RG HD (all_on_complete _ _ _ _)) as (cfl0 & P0 & R).
  - intros c Hc. destruct (TI c) as (A & B & C & _). split; [lra | auto].
  - intros S T P HS c F HF. unfold flux. pose proof (outward_measures sq sq_v [4; 4; 3; 3] c F VM HF) as MM. cbv zeta in MM. destruct (IN S T P HS c F HF) as (L1 & L2 & L3 & _).
    assert (SR : exists r, r = match beside sq c F with Some d => at_facet sq sq_v 2 (tilted z) S T P d F | None => outside sq sq_v [4; 4; 3; 3] basin (tilted z) c F end /\ (1/2 <= q_h r)%R /\ q_hu r = 0%R /\ q_hv r = 0%R).
    { destruct (beside sq c F) as [d|] eqn:EB; eexists; (split; [reflexivity|]); [|exact (OUT c F)]. destruct (beside_swap 2 sq sq_v [4; 4; 3; 3] VM c d F HF EB) as (Hd & _). destruct (IN S T P HS d F Hd) as (A & B & C & _). auto. }
    destruct SR as (r & <- & R1 & R2 & R3). destruct (still_flux _ r _ _ MM L1 R1 L2 L3 R2 R3) as (X & EX & _). rewrite EX. discriminate.
  - exists cfl0. split; [exact P0|]. intros cfl HC. destruct (R cfl HC) as (dt & V & DP & LG & SV & VW & RUN). exists dt, V. split; [exact DP|]. split; [exact SV|]. split; [|intros f32; destruct (RUN f32) as (st & ES & R'); exists st; split; [exact ES|]; intros w0 HV; exact (R' _ w0 (or_introl eq_refl) HV)].
    destruct (C79_balance sq sq_v [4; 4; 3; 3] basin 2 (coefficients co) dt (tilted z) V VM SV) as (S & T & P & N & G & Phi & HB). cbv zeta in HB. destruct HB as (HS & _ & HP & -> & _).
    assert (SL : forall c, iscell sq c -> slowed (coefficients co) dt (tilted z c) = (tilted z) c). { intros c Hc. destruct (TI c) as (A & U & W & _). assert (A0 : (0 < q_h (tilted z c))%R) by lra. exact (proj1 (rest_slowed (coefficients co) _ dt (tilted z c) (conj A0 (conj U (conj W eq_refl))))). }
    assert (HS' : slopes sq sq_v [4; 4; 3; 3] 2 (tilted z) S T P) by exact HS.
    change (boundary_facets sq) with [(0, [1; 2]); (0, [0; 1]); (1, [2; 3]); (1, [0; 3])]. cbn [map fst snd]. unfold rsum. cbn [fold_right].
    destruct C69_square_outward as (O1 & O2 & O3 & O4 & O5 & O6).
    assert (W : forall c F n, has_facet 2 sq c F -> beside sq c F = None -> outward sq sq_v c F = n -> vdot n n = 1%R ->
      q_h (Phi c F) = (sqrt (g981 * ((q_h (at_facet sq sq_v 2 (tilted z) S T P c F) + q_h (tilted z c)) / 2)) * (q_h (at_facet sq sq_v 2 (tilted z) S T P c F) - q_h (tilted z c)) / 2)%R).
    { intros c F n HF EB EO E1. pose proof (HP c F (proj1 HF) (proj2 (facets_iff 2 sq sq_v Properties_geom.sq_wf c F (proj1 HF)) HF)) as HPc.
      rewrite (flux_same sq sq_v [4; 4; 3; 3] basin 2 VM _ (tilted z) (fun c Hc => SL c Hc) S T P S T P c F HS HS' (proj1 HF)) in HPc. unfold flux in HPc. rewrite EB in HPc. pose proof (outward_measures sq sq_v [4; 4; 3; 3] c F VM HF) as MM. cbv zeta in MM.
      destruct (IN S T P HS' c F HF) as (L1 & L2 & L3 & L4). destruct (OUT c F) as (Q1 & Q2 & Q3). destruct (still_flux _ _ _ _ MM L1 Q1 L2 L3 Q2 Q3) as (X & EX & HX). rewrite EX in HPc. injection HPc as <-. rewrite HX, EO, E1, sqrt_1. unfold Spec_sw.celerity.
      assert (EQ : q_h (outside sq sq_v [4; 4; 3; 3] basin (tilted z) c F) = q_h (tilted z c) /\ q_Z (outside sq sq_v [4; 4; 3; 3] basin (tilted z) c F) = q_Z (tilted z c)) by (unfold outside; rewrite EB; auto).
      destruct EQ as (-> & ->). rewrite L4. f_equal. ring. }
    assert (HF0 : forall c F, In (c, F) [(0, [1; 2]); (0, [0; 1]); (1, [2; 3]); (1, [0; 3])] -> has_facet 2 sq c F).
    { intros c F H. assert (Hc : iscell sq c) by (unfold iscell; change (zlen sq) with 2; cbn in H; repeat (destruct H as [H|H]; [injection H as <- _; lia|]); destruct H). apply (facets_iff 2 sq sq_v Properties_geom.sq_wf c F Hc). cbn in H. repeat (destruct H as [H|H]; [injection H as <- <-; vm_compute; tauto|]). destruct H. }
    rewrite (W 0 [1; 2] _ (HF0 0 [1; 2] ltac:(cbn; auto)) eq_refl O1) by (unfold vdot; cbn [px py pz]; ring). rewrite (W 0 [0; 1] _ (HF0 0 [0; 1] ltac:(cbn; auto)) eq_refl O3) by (unfold vdot; cbn [px py pz]; ring).
    rewrite (W 1 [2; 3] _ (HF0 1 [2; 3] ltac:(cbn; auto)) eq_refl O4) by (unfold vdot; cbn [px py pz]; ring). rewrite (W 1 [0; 3] _ (HF0 1 [0; 3] ltac:(cbn; auto)) eq_refl O6) by (unfold vdot; cbn [px py pz]; ring).
    rewrite (tilted_depth z S T P HS' 0 [1; 2] (HF0 0 [1; 2] ltac:(cbn; auto))), (tilted_depth z S T P HS' 0 [0; 1] (HF0 0 [0; 1] ltac:(cbn; auto))), (tilted_depth z S T P HS' 1 [2; 3] (HF0 1 [2; 3] ltac:(cbn; auto))), (tilted_depth z S T P HS' 1 [0; 3] (HF0 1 [0; 3] ltac:(cbn; auto))).
    cbn [Z.eqb]. repeat (match goal with |- context [list_eq_dec Z.eq_dec ?a ?b] => destruct (list_eq_dec Z.eq_dec a b); [discriminate|] end). change (q_h (tilted z 0)) with 1%R. change (q_h (tilted z 1)) with 2%R.
    set (a := sqrt (g981 * ((47 / 52 + 1) / 2))). set (b := sqrt (g981 * ((109 / 52 + 2) / 2))). assert (AB : (a < b)%R) by (unfold a, b; apply sqrt_lt_1_alt; unfold g981; lra).
    assert (X : (0 < dt * (b - a))%R) by (apply Rmult_lt_0_compat; lra). lra.
Qed.
Print Assumptions C79_second_order_walls_refuted.
(** with the bottom of the first triangle at 1 this is a lake at rest: second order does not keep it *)
Theorem C79_second_order_lake_refuted : lake sq 2 (tilted 1) /\ forall Dx Dy Mann fc, (0 <= Dx + Dy)%R -> exists cfl0, (0 < cfl0)%R /\ forall cfl, (0 < cfl <= cfl0)%R -> exists dt V,
  (0 < dt)%R /\ sw_step sq sq_v [4; 4; 3; 3] basin 2 (coefficients (all_on Dx Dy Mann fc)) dt (tilted 1) V /\ exists c, iscell sq c /\ q_h (V c) <> q_h (tilted 1 c).
Proof.
  split; [intros c Hc; unfold tilted; destruct (c =? 0); cbn; lra|]. intros Dx Dy Mann fc HD. destruct (C79_second_order_walls_refuted 1 Dx Dy Mann fc HD) as (cfl0 & P0 & R). exists cfl0. split; [exact P0|]. intros cfl HC. destruct (R cfl HC) as (dt & V & DP & SV & AM & _).
  exists dt, V. split; [exact DP|]. split; [exact SV|]. destruct (Req_dec (q_h (V 0)) (q_h (tilted 1 0))) as [E0|N0]; [|exists 0; split; [unfold iscell; change (zlen sq) with 2; lia | exact N0]].
  destruct (Req_dec (q_h (V 1)) (q_h (tilted 1 1))) as [E1|N1]; [|exists 1; split; [unfold iscell; change (zlen sq) with 2; lia | exact N1]]. exfalso. unfold amount in AM. change (range (zlen sq)) with [0; 1] in AM. cbn [map] in AM. rewrite E0, E1 in AM. lra.
Qed.
