(** * Proofs_per4: the faces of the domain of a periodic mesh, and what flows through them. *)
From Coq Require Import Reals Lra Permutation Sorted.
From Verif Require Import Py PyLemmas Model_part Spec_part Model_label Proofs_label Model_conn Spec_conn Proofs_conn1 Proofs_conn2 Model_geom Spec_geom Proofs_geom1 Proofs_geom2 Proofs_geom3
  Model_periodic Spec_periodic Model_interp Spec_interp Properties_interp Model_fvm Spec_fvm Proofs_fvm1 Proofs_fvm2 Model_bc Spec_bc Proofs_bc Proofs_bc2 Model_domain Spec_domain Proofs_domain1 Proofs_domain4 Model_parallel Spec_parallel Proofs_parallel1
  Properties_parallel Properties_fvm Model_comm Model_run Spec_run Proofs_run1 Proofs_run2 Proofs_run3 Proofs_run4 Proofs_run5.
From Verif Require Import Spec_per Proofs_per2 Proofs_per3.
Open Scope Z_scope.

Section Run.
Context (f32 : R -> R) (dim : Z) (cells : list (list Z)) (nodes : list pt) (labels npart0 epart : list Z) (D D1 : domain).
Hypothesis PM : periodic_mesh dim cells nodes labels f32.
Hypothesis VS : valid_split dim 1 cells nodes npart0 epart.
Hypothesis TW : twins f32 dim cells nodes labels D D1.
Hypothesis PA : part_of dim cells nodes (ones nodes) epart 0 D1.
Hypothesis CS : consistent dim D1.
Hypothesis FD : wf_facedata dim (dom_face D).
Notation VM := (VM1 f32 dim cells nodes labels PM).
Notation WF := (pm_mesh _ _ _ _ _ PM).
Notation Hd := (wm_dim _ _ _ (pm_mesh _ _ _ _ _ PM)).
Notation nf := (zlen (dm_facenodes D1)).
Notation lab f := (flabel dim labels (fset D1 f)).
Notation tf := (tw_face _ _ _ _ _ _ _ TW).

(** ** the cells *)
Lemma owns c : iscell cells c -> owner epart c = 0.
Proof. intros Hc. destruct (vs_owners _ _ _ _ _ _ VS) as (_ & X). specialize (X c Hc). lia. Qed.
Lemma loc_all : dm_loctoglob D1 = range (zlen cells).
Proof. rewrite (pa_cells _ _ _ _ _ _ _ PA). unfold owned. apply keep_all. intros c Hc. apply in_range in Hc. rewrite (owns c Hc). reflexivity. Qed.
Lemma len_cells : zlen (dm_loctoglob D1) = zlen cells /\ zlen (dm_center D) = zlen cells /\ zlen (dm_center D1) = zlen cells.
Proof. destruct (pa_sizes _ _ _ _ _ _ _ PA) as (_ & S2 & _). destruct (tw_cells _ _ _ _ _ _ _ TW) as (E & _). rewrite E, S2, loc_all, zlen_range by apply zlen_nonneg. auto. Qed.
Lemma is_cell c : iscell_of D1 c <-> iscell cells c.
Proof. unfold iscell_of, iscell. rewrite (proj1 len_cells). tauto. Qed.
Lemma gcell1 c : iscell cells c -> gcell D1 c = c.
Proof. intros Hc. unfold gcell. rewrite loc_all. apply nthZ_range. exact Hc. Qed.
Lemma len_cellid1 : zlen (dm_cellid D1) = nf. Proof. apply (pa_sizes _ _ _ _ _ _ _ PA). Qed.
Lemma left1 f : isface D1 f -> left_of D f = left_of D1 f /\ iscell cells (left_of D1 f).
Proof.
  intros Hf. assert (E : left_of D f = left_of D1 f) by (unfold left_of; destruct (tf f Hf) as [a b r r1 | a r r1 | a f' r r1]; rewrite r, r1; reflexivity). split; [exact E|].
  destruct (cs_fv _ _ CS) as (W & _). destruct (wfv_face _ _ W f ltac:(cbn [dom_fv fv_cellid]; rewrite len_cellid1; exact Hf)) as (_ & X & _). cbn [dom_fv fv_centerc] in X. rewrite (proj2 (proj2 len_cells)) in X. exact X.
Qed.

(** ** the lists of faces *)
Lemma names f : isface D1 f -> nthZ 0 (dm_name D) f = 0 \/ nthZ 0 (dm_name D) f <> 0 /\ (1 <= nthZ 0 (dm_name D) f <= 2 * dim \/ is_periodic dim (nthZ 0 (dm_name D) f) = true).
Proof. intros Hf. destruct (tf f Hf) as [a b r r1 n n1 cb | a r r1 n n1 one pl | a f' r r1 n n1 one pe]; [left; exact n | right; rewrite n; split; [lia | left; exact pl] |]. right. rewrite n. split; [|right; exact pe]. intros E. rewrite E in pe. unfold is_periodic, is_x, is_y, is_z in pe. destruct (dim =? 3); discriminate. Qed.
Lemma len_name : zlen (dm_name D) = nf. Proof. apply (tw_faces _ _ _ _ _ _ _ TW). Qed.
Lemma len_cellid : zlen (dm_cellid D) = nf. Proof. apply (tw_faces _ _ _ _ _ _ _ TW). Qed.
Lemma in_w v f : In f (where_eq (dm_name D) v) <-> isface D1 f /\ nthZ 0 (dm_name D) f = v.
Proof. rewrite In_where, len_name. reflexivity. Qed.
Lemma lists_eq : dom_lists D = let l := face_lists dim (dm_name D) in {| ls_inner := Model_label.fl_inner l; ls_periodic := fl_pboundary l; ls_halo := Model_label.fl_halo l; ls_boundary := fl_boundary l |}.
Proof. unfold dom_lists. rewrite (tw_dim _ _ _ _ _ _ _ TW). reflexivity. Qed.
Lemma in_inner f : In f (ls_inner (dom_lists D)) <-> isface D1 f /\ nthZ 0 (dm_name D) f = 0. Proof. rewrite lists_eq. apply in_w. Qed.
Lemma no_halo : ls_halo (dom_lists D) = [].
Proof.
  destruct (ls_halo (dom_lists D)) as [|f l] eqn:E; [reflexivity|]. exfalso. assert (HI : In f (ls_halo (dom_lists D))) by (rewrite E; left; reflexivity). rewrite lists_eq in HI. apply in_w in HI as (Hf & E0). pose proof Hd.
  destruct (names f Hf) as [X|(_ & [X|X])]; rewrite E0 in X; try lia. unfold is_periodic, is_x, is_y, is_z in X. destruct (dim =? 3); discriminate.
Qed.
Lemma in_boundary f : In f (ls_boundary (dom_lists D)) <-> isface D1 f /\ 1 <= nthZ 0 (dm_name D) f <= 2 * dim.
Proof.
  rewrite lists_eq. cbv zeta. cbn [ls_boundary]. unfold face_lists. cbn [fl_boundary]. rewrite np_sort_In. pose proof Hd as [E | E]; rewrite E; cbn [Z.eqb Pos.eqb]; rewrite !in_app_iff, !in_w; (split; [intuition lia | intros (A & B)]; set (l := nthZ 0 (dm_name D) f) in *; clearbody l; assert (X : l = 1 \/ l = 2 \/ l = 3 \/ l = 4 \/ l = 5 \/ l = 6) by lia; clear E; intuition lia).
Qed.
Lemma in_periodic f : In f (ls_periodic (dom_lists D)) <-> isface D1 f /\ is_periodic dim (nthZ 0 (dm_name D) f) = true.
Proof.
  rewrite lists_eq. cbv zeta. cbn [ls_periodic]. unfold face_lists. cbn [fl_pboundary]. rewrite np_sort_In. unfold is_periodic, is_x, is_y, is_z. pose proof Hd as [E | E]; rewrite E; cbn [Z.eqb Pos.eqb andb]; rewrite !in_app_iff, !in_w; set (l := nthZ 0 (dm_name D) f) in *; clearbody l; clear E.
  - assert (X : (l =? 11) || (l =? 22) || ((l =? 33) || (l =? 44)) || false = true <-> l = 11 \/ l = 22 \/ l = 33 \/ l = 44) by lia. rewrite X. tauto.
  - assert (X : (l =? 11) || (l =? 22) || ((l =? 33) || (l =? 44)) || ((l =? 55) || (l =? 66)) = true <-> l = 11 \/ l = 22 \/ l = 33 \/ l = 44 \/ l = 55 \/ l = 66) by lia. rewrite X. tauto.
Qed.
Lemma listed f : In f (all_faces (dom_lists D)) <-> isface D1 f.
Proof.
  unfold all_faces. rewrite !in_app_iff, in_inner, in_periodic, in_boundary, no_halo. cbn [In]. split; [tauto|]. intros Hf. destruct (names f Hf) as [X|(_ & [X|X])]; tauto.
Qed.
Lemma once : Permutation (all_faces (dom_lists D)) (range nf).
Proof.
  apply (Permutation_count_occ Z.eq_dec). intros f. destruct (Z_lt_le_dec f 0) as [H0|H0]; [|destruct (Z_lt_le_dec f nf) as [H1|H1]].
  1, 3: rewrite (proj1 (count_occ_not_In Z.eq_dec _ f)) by (rewrite listed; unfold isface; lia); rewrite (proj1 (count_occ_not_In Z.eq_dec _ f)) by (rewrite in_range; lia); reflexivity.
  rewrite (proj1 (NoDup_count_occ' Z.eq_dec (range nf)) (NoDup_range _)) by (apply in_range; lia). unfold all_faces. rewrite no_halo, !count_occ_app. cbn [count_occ]. rewrite lists_eq. cbv zeta. cbn [ls_inner ls_periodic ls_boundary].
  assert (Hf : 0 <= f < zlen (dm_name D)) by (rewrite len_name; lia). change (Model_label.fl_inner (face_lists dim (dm_name D))) with (where_eq (dm_name D) 0). rewrite count_where by exact Hf.
  destruct (c16_boundary dim (dm_name D) f Hd Hf) as (C1 & C2). rewrite C1, C2. pose proof (names f ltac:(split; assumption)) as HB. set (l := nthZ 0 (dm_name D) f) in *. clearbody l. clear C1 C2 Hf.
  unfold is_periodic, is_x, is_y, is_z in HB. destruct Hd as [E | E]; rewrite E in HB |- *; cbn [Z.eqb Pos.eqb andb mem existsb] in HB |- *.
  - destruct HB as [-> |(N & HB)]; [reflexivity|]. destruct (Z.eqb_spec l 0); [lia|]. assert (X : l = 1 \/ l = 2 \/ l = 3 \/ l = 4 \/ l = 11 \/ l = 22 \/ l = 33 \/ l = 44) by lia. repeat (destruct X as [-> |X]; [reflexivity|]). rewrite X. reflexivity.
  - destruct HB as [-> |(N & HB)]; [reflexivity|]. destruct (Z.eqb_spec l 0); [lia|]. assert (X : l = 1 \/ l = 2 \/ l = 3 \/ l = 4 \/ l = 5 \/ l = 6 \/ l = 11 \/ l = 22 \/ l = 33 \/ l = 44 \/ l = 55 \/ l = 66) by lia. repeat (destruct X as [-> |X]; [reflexivity|]). rewrite X. reflexivity.
Qed.
Lemma fv_ok : wf_fvdata dim (dom_fv D) /\ wf_lists dim (dom_fv D) (dom_lists D).
Proof.
  destruct (wfa_len _ _ FD) as (A1 & A2 & A3 & A4 & A5 & A6). destruct (tw_faces _ _ _ _ _ _ _ TW) as (F1 & F2 & F3 & F4 & F5 & F6 & F7). split.
  - constructor.
    + exact Hd.
    + split; [exact A3|]. split; [exact A4|]. split; [|split; [exact A5 | exact A6]]. cbn [dom_fv fv_centerf fv_cellid]. rewrite F4, F5. destruct (cs_fv _ _ CS) as (W & _). destruct (wfv_len _ _ W) as (_ & _ & L & _). cbn [dom_fv fv_centerf fv_cellid] in L. rewrite L. exact len_cellid1.
    + intros f Hf. destruct (wfa_face _ _ FD f Hf) as (B1 & B2 & B3 & B4 & B5 & B6). split; [exact B1|]. split; [exact B2|]. split; [exact B5 | exact B6].
  - assert (FE : zlen (fv_cellid (dom_fv D)) = nf) by exact len_cellid. red. rewrite FE. split; [|split; [|split]]; intros f Hf.
    + apply in_inner. exact Hf.
    + apply in_periodic. exact Hf.
    + rewrite no_halo in Hf. destruct Hf.
    + apply in_boundary. exact Hf.
Qed.
(** the faces of a cell *)
Lemma same_on c f : isface D1 f -> (cell0 (dom_fv D) f =? c) || (fv_label (dom_fv D) f =? 0) && (cell1 (dom_fv D) f =? c) = ((cell0 (dom_fv D1) f =? c) || (fv_label (dom_fv D1) f =? 0) && (cell1 (dom_fv D1) f =? c)).
Proof.
  intros Hf. unfold cell0, cell1, fv_label. cbn [dom_fv fv_cellid fv_name]. pose proof (names f Hf) as NM. destruct (tf f Hf) as [a b r r1 n n1 cb | a r r1 n n1 one pl | a f' r r1 n n1 one pe]; rewrite r, r1, n1.
  - rewrite n. reflexivity.
  - rewrite n. destruct (Z.eqb_spec (lab f) 0); [lia|]. reflexivity.
  - destruct (Z.eqb_spec (nthZ 0 (dm_name D) f) 0) as [E|_]; [exfalso; rewrite n in E; rewrite E in pe; unfold is_periodic, is_x, is_y, is_z in pe; destruct (dim =? 3); discriminate | reflexivity].
Qed.
Lemma row_faces c : iscell cells c -> Permutation (nthZ [] (dm_faceid D) c) (filter (fun f => (cell0 (dom_fv D) f =? c) || (fv_label (dom_fv D) f =? 0) && (cell1 (dom_fv D) f =? c)) (all_faces (dom_lists D))).
Proof.
  intros Hc. destruct (tw_cells _ _ _ _ _ _ _ TW) as (_ & _ & -> & _). destruct (cs_lists_faces _ _ CS) as (_ & _ & LP). destruct (pa_sizes _ _ _ _ _ _ _ PA) as (_ & _ & _ & SF & _). rewrite LP by (rewrite SF, (proj1 len_cells); exact Hc).
  transitivity (filter (fun f => (cell0 (dom_fv D1) f =? c) || (fv_label (dom_fv D1) f =? 0) && (cell1 (dom_fv D1) f =? c)) (all_faces (dom_lists D))).
  - apply Permutation_keep. rewrite once. rewrite <- len_cellid1. exact (cs_each_face_once _ _ CS).
  - rewrite (filter_ext_in _ (fun f => (cell0 (dom_fv D) f =? c) || (fv_label (dom_fv D) f =? 0) && (cell1 (dom_fv D) f =? c))); [reflexivity|]. intros f Hf. symmetry. apply same_on. apply listed. exact Hf.
Qed.
Lemma sum_row (x : Z -> R) (y : list Z -> R) c : iscell cells c -> (forall f, In f (nthZ [] (dm_faceid D1) c) -> leaves (dom_fv D) x c f = y (fset D1 f)) ->
  rsum (map (leaves (dom_fv D) x c) (all_faces (dom_lists D))) = rsum (map y (facets (cell cells c))).
Proof.
  intros Hc H. transitivity (rsum (map (leaves (dom_fv D) x c) (nthZ [] (dm_faceid D) c))).
  - rewrite (rsum_perm _ _ (Permutation_map _ (row_faces c Hc))). rewrite rsum_filter. apply rsum_map_ext. intros f _. unfold leaves.
    destruct (cell0 (dom_fv D) f =? c); cbn [orb]; [reflexivity|]. destruct ((fv_label (dom_fv D) f =? 0) && (cell1 (dom_fv D) f =? c)); [reflexivity | ring].
  - pose proof (fset_row dim cells nodes (ones nodes) epart 0 D1 VM PA CS c (proj2 (is_cell c) Hc)) as FR. rewrite (gcell1 c Hc) in FR. rewrite <- (rsum_perm _ _ (Permutation_map y FR)). rewrite map_map. destruct (tw_cells _ _ _ _ _ _ _ TW) as (_ & _ & -> & _). apply rsum_map_ext. exact H.
Qed.

End Run.
