(** * Proofs_domain3: the tables of a constructed domain are consistent. *)
From Coq Require Import Reals Permutation Sorted Lra.
From Verif Require Import Py PyLemmas Model_part Model_label Proofs_label Model_conn Spec_conn Proofs_conn1 Proofs_conn2 Proofs_conn3 Model_geom Spec_geom Proofs_geom1 Proofs_geom2 Proofs_geom3
  Model_halo Spec_halo Proofs_halo1 Proofs_halo2 Proofs_halo3 Properties_halo Model_periodic Spec_periodic Proofs_periodic Proofs_periodic2 Proofs_periodic3
  Model_interp Spec_interp Proofs_interp1 Proofs_interp2 Proofs_interp4 Properties_interp Model_fvm Spec_fvm Proofs_fvm1 Proofs_fvm2 Model_bc Spec_bc Proofs_bc Model_linsys Spec_linsys Model_domain Spec_domain Proofs_domain1 Proofs_domain2.
From Verif Require Model_sw Spec_sw.
Open Scope Z_scope.

(** [side] is affine in the point *)
Lemma side_mid vertex F v g : side vertex F (vscal (1 / 2) (vadd v g)) = 0%R -> side vertex F g = (- side vertex F v)%R.
Proof.
  unfold side. destruct (map (at_node vertex) F) as [|[a1 a2 a3] [|[b1 b2 b3] [|[c1 c2 c3] [|d l]]]]; try (intros; lra).
  - destruct v as [v1 v2 v3], g as [g1 g2 g3]. unfold turn, vscal, vadd. cbn [px py pz]. intros H. lra.
  - destruct v as [v1 v2 v3], g as [g1 g2 g3]. unfold det4, det, vsub, vscal, vadd. cbn [px py pz]. intros H. lra.
Qed.
Lemma vsum_perm l l' : Permutation l l' -> vsum l = vsum l'.
Proof.
  intros P. rewrite <- (map_id l), <- (map_id l'). apply pt_eq; rewrite ?vsum_px, ?vsum_py, ?vsum_pz; apply rsum_perm, Permutation_map; exact P.
Qed.
Lemma vsum_filter {T} (p : T -> bool) (f : T -> pt) l : vsum (map f (filter p l)) = vsum (map (fun x => if p x then f x else vzero) l).
Proof.
  induction l as [|x l IH]; [reflexivity|]. cbn [filter map]. destruct (p x); cbn [map vsum fold_right]; fold (vsum (map f (filter p l))) (vsum (map (fun x => if p x then f x else vzero) l)); rewrite IH; [reflexivity|].
  set (u := vsum _). destruct u as [u1 u2 u3]. unfold vadd, vzero. cbn [px py pz]. f_equal; ring.
Qed.

Section Cons.
Context (dim size : Z) (nodeid : list (list Z)) (vertex : list pt) (namen : list Z) (K : rankdata).
Hypothesis VR : valid_rank dim size nodeid vertex namen K.
Let WF := vr_mesh _ _ _ _ _ _ VR.
Let HN : zlen namen = zlen vertex := proj1 (vr_labels _ _ _ _ _ _ VR).
Let NFL := vr_nonflat _ _ _ _ _ _ VR.
Let Hd := Hdim dim size nodeid vertex namen K VR.
Context (g : geometry) (cn : conn) (h : halostruct) (nodecell cellnid : list (list Z)).
Hypothesis P : parts dim size nodeid vertex namen K g cn h nodecell cellnid.
Let Hcn := bu_cn _ _ _ _ _ _ _ _ _ _ _ P.
Let EL := bu_el _ _ _ _ _ _ _ _ _ _ _ P.
Let HF := bu_hf _ _ _ _ _ _ _ _ _ _ _ P.
Let fc f (Hf : 0 <= f < zlen (ge_facenodes g)) := fcase dim size nodeid vertex namen K VR g cn h nodecell cellnid P f Hf.
Let LC := len_center dim size nodeid vertex namen K g cn h nodecell cellnid P.
Context (nv : list nodevar) (di : list diamond).
Definition D := assembled dim nodeid vertex namen K g cn h nodecell cellnid nv di.

Lemma len_cellid : zlen (h_cellid h) = zlen (ge_facenodes g). Proof. exact (proj1 (hf_len _ _ _ _ _ _ _ _ HF)). Qed.

Lemma cells_ok : wf_celldata dim (dom_cell D) (zlen vertex) (zlen (ge_facenodes g)) (rk_nhg K).
Proof.
  destruct (hf_len _ _ _ _ _ _ _ _ HF) as (L1 & L2 & L3 & L4 & L5). destruct (nc_len _ _ _ _ (bu_n _ _ _ _ _ _ _ _ _ _ _ P)) as (N1 & N2).
  destruct (ghosts_padded dim size nodeid vertex namen K VR g cn h nodecell cellnid P) as (G1 & G2), (haloghosts_padded dim size nodeid vertex namen K VR) as (G3 & G4). constructor.
  - exact Hd.
  - cbn [dom_cell D assembled cd_centerc cd_cellnid cd_halonid cd_nodes cd_periodicnid cd_periodic cd_old cd_ghost cd_haloghost cd_centerh cd_shift dm_center dm_cellnid dm_cellhalo dm_cellnodes dm_periodicnid dm_nodeperiodic dm_old dm_nodeghost dm_haloghost dm_centerh dm_shift].
    rewrite !zlen_pad_unique, !zlen_zeros_like, zlen_ocells by apply zlen_nonneg. rewrite LC. repeat split; assumption.
  - intros i Hi. change (0 <= i < zlen (map cg_center (ge_cells g))) in Hi. rewrite LC in Hi.
    change (cd_centerc (dom_cell D)) with (map cg_center (ge_cells g)). rewrite LC.
    split; [exact (proj1 (cell_row_of dim size nodeid vertex namen K g cn h nodecell cellnid P i Hi))|].
    split; [exact (proj1 (cellhalo_row_of dim size nodeid vertex namen K VR g cn h nodecell cellnid P i Hi))|].
    split; [exact (proj1 (periodic_row nodeid (zlen nodeid) i Hi))|].
    destruct (wm_rows _ _ _ (WFo dim vertex nodeid WF) (cell (ocells dim vertex nodeid) i)) as (HL & _ & HR); [apply nthZ_In; rewrite zlen_ocells; exact Hi|].
    change (nthZ [] (cd_nodes (dom_cell D)) i) with (cell (ocells dim vertex nodeid) i). split; [lia|]. intros k Hk. apply HR. rewrite <- (firstn_skipn (Z.to_nat (dim + 1)) (cell (ocells dim vertex nodeid) i)). apply in_or_app. left. exact Hk.
  - intros k Hk. change (cd_centerc (dom_cell D)) with (map cg_center (ge_cells g)). rewrite LC.
    split; [exact (proj1 (periodic_row nodeid (zlen vertex) k Hk))|]. split; [exact (proj1 (G2 k Hk)) | exact (proj1 (G4 k Hk))].
Qed.
Lemma cells_no_periodic c : 0 <= c < zlen (dm_center D) -> row_count (nthZ [] (dm_periodicnid D) c) = 0.
Proof. intros Hc. change (0 <= c < zlen (map cg_center (ge_cells g))) in Hc. rewrite LC in Hc. exact (proj2 (periodic_row nodeid (zlen nodeid) c Hc)). Qed.

(** ** the two sides of a face *)
Lemma center_left f : 0 <= f < zlen (ge_facenodes g) -> face_left (dom_face D) f = centerc dim vertex nodeid (cleft cn f).
Proof.
  intros Hf. destruct (fc f Hf) as ((Hc & _) & HC). unfold face_left. change (fd_centerc (dom_face D)) with (map cg_center (ge_cells g)). change (fd_cellid (dom_face D)) with (h_cellid h).
  assert (E : nthZ 0 (nthZ [] (h_cellid h) f) 0 = cleft cn f) by (destruct HC as [E0 b E1 | E0 E1 | E0 E1]; rewrite E1; reflexivity). rewrite E.
  apply (center_at dim size nodeid vertex namen K g cn h nodecell cellnid P); exact Hc.
Qed.
Lemma other_side f : 0 <= f < zlen (ge_facenodes g) ->
  (side vertex (Fs cn f) (fst (face_other dim (dom_face D) f)) * side vertex (Fs cn f) (centerc dim vertex nodeid (cleft cn f)) < 0)%R.
Proof.
  intros Hf. destruct (fc f Hf) as (HL & HC). destruct (opposite dim size nodeid vertex namen K VR _ _ HL) as (x & _ & Ix & Nx).
  destruct (center_same_side dim size nodeid vertex namen K VR _ _ x HL Ix Nx) as (k & Hk & Ek & Hx).
  pose proof (name_not_periodic dim size nodeid vertex namen K VR g cn h nodecell cellnid P f Hf) as (_ & NP).
  unfold face_other. change (fd_name (dom_face D)) with (h_name h). change (fd_cellid (dom_face D)) with (h_cellid h). change (fd_halofid (dom_face D)) with (h_halofid h).
  change (fd_centerc (dom_face D)) with (map cg_center (ge_cells g)). change (fd_centerh (dom_face D)) with (rk_center K). change (fd_ghost (dom_face D)) with (map gc_pt (h_ghost h)). rewrite NP. cbv zeta.
  set (s := side vertex (Fs cn f) (at_node vertex x)) in *.
  destruct HC as [E0 b E1 E2 E3 E4 E5 | E0 E1 E2 E3 E4 | E0 E1 E2 E3].
  - rewrite E0. cbn [Z.eqb fst]. rewrite E1. change (nthZ 0 [cleft cn f; b] 1) with b.
    rewrite (center_at dim size nodeid vertex namen K g cn h nodecell cellnid P b (proj1 E3)).
    destruct (opposite dim size nodeid vertex namen K VR _ _ E3) as (y & _ & Iy & Ny). destruct (center_same_side dim size nodeid vertex namen K VR _ _ y E3 Iy Ny) as (k' & Hk' & Ek' & Hy).
    pose proof (vr_proper _ _ _ _ _ _ VR _ _ _ x y HL E3 ltac:(lia) Ix Nx Iy Ny) as HP. fold s in HP. set (t := side vertex (Fs cn f) (at_node vertex y)) in *. rewrite Ek, Ek'.
    assert (0 < k' * k)%R by (apply Rmult_lt_0_compat; assumption). replace (k' * t * (k * s))%R with (- ((k' * k) * - (s * t)))%R by ring.
    assert (0 < (k' * k) * - (s * t))%R by (apply Rmult_lt_0_compat; lra). lra.
  - assert (N0 : (nthZ 0 (h_name h) f =? 0) = false) by lia. assert (N10 : (nthZ 0 (h_name h) f =? 10) = false) by (pose proof Hd; lia). rewrite N0, N10. cbn [fst].
    destruct (hf_ghost _ _ _ _ _ _ _ _ HF) as (LG & _ & _ & _ & Hmir & _). rewrite (nthZ_map gc_pt gc0) by (rewrite LG; exact Hf).
    assert (HG : has_ghost dim (nthZ 0 (h_name h) f) = true) by (rewrite has_ghost_iff by (try exact Hd; lia); lia).
    destruct (Hmir f Hf HG) as (M & _). rewrite E1 in M. change (nthZ 0 [cleft cn f; -1] 0) with (cleft cn f) in M.
    assert (EC : cg_center (nthZ (cg0 []) (ge_cells g) (cleft cn f)) = centerc dim vertex nodeid (cleft cn f)).
    { rewrite (bu_ecs _ _ _ _ _ _ _ _ _ _ _ P). rewrite (nthZ_map _ []) by exact (proj1 HL). reflexivity. }
    rewrite EC in M. apply side_mid in M. destruct (side_perm vertex _ _ (bu_pf _ _ _ _ _ _ _ _ _ _ _ P f Hf)) as (e & He & Es). rewrite !Es in M. fold (Fs cn f) in M.
    set (G := gc_pt (nthZ gc0 (h_ghost h) f)) in *. assert (EG : side vertex (Fs cn f) G = (- side vertex (Fs cn f) (centerc dim vertex nodeid (cleft cn f)))%R) by (destruct He as [-> | ->]; lra).
    rewrite EG, Ek. assert (s <> 0)%R by exact Hx. assert (k * s <> 0)%R by (apply Rmult_integral_contrapositive_currified; lra).
    pose proof (Rsqr_pos_lt (k * s) H0) as HQ. unfold Rsqr in HQ. lra.
  - rewrite E0. cbn [Z.eqb Pos.eqb fst]. destruct (vr_cut _ _ _ _ _ _ VR _ _ _ x HL E3 Ix Nx) as (_ & HC). fold s in HC. rewrite Ek.
    set (t := side vertex (Fs cn f) (nthZ vzero (rk_center K) (nthZ 0 (h_halofid h) f))) in *. replace (t * (k * s))%R with (- (k * - (s * t)))%R by ring.
    assert (0 < k * - (s * t))%R by (apply Rmult_lt_0_compat; lra). lra.
Qed.
Lemma faces_two_sided f : 0 <= f < zlen (ge_facenodes g) -> two_sided D f.
Proof.
  intros Hf. pose proof (other_side f Hf) as H. unfold two_sided. cbv zeta. change (dm_vertex D) with vertex. change (dm_facenodes D) with (ge_facenodes g). change (dm_dim D) with dim. rewrite center_left by exact Hf.
  destruct (side_perm vertex _ _ (bu_pf _ _ _ _ _ _ _ _ _ _ _ P f Hf)) as (e & He & Es). rewrite !Es. fold (Fs cn f). destruct He as [-> | ->]; lra.
Qed.
Lemma normals_of_nodes f : 0 <= f < zlen (ge_facenodes g) -> normal_of_nodes dim (dom_face D) f.
Proof.
  intros Hf E3. change (fd_vertex (dom_face D)) with vertex. change (fd_nodes (dom_face D)) with (ge_facenodes g). change (fd_normal (dom_face D)) with (map fg_normal (ge_faces g)).
  assert (X : exists g', build_geometry dim nodeid vertex namen = Ok g' /\ zlen (ge_facenodes g') = zlen (cn_faces (ge_conn g')) /\
  forall f, 0 <= f < zlen (cn_faces (ge_conn g')) -> exists s1 s2 s3, nthZ [] (ge_facenodes g') f = [s1; s2; s3] /\
    Permutation [s1; s2; s3] (nthZ [] (cn_faces (ge_conn g')) f) /\ nthZ 0 (nthZ [] (cn_faces (ge_conn g')) f) 0 = s1 /\
    let a := at_node vertex s1 in let b := at_node vertex s2 in let c := at_node vertex s3 in
    forall w, vdot (fg_normal (nthZ fg0 (ge_faces g') f)) w = (/ 2 * det (vsub b a) (vsub c a) w)%R).
  { rewrite E3. apply c23; [rewrite <- E3; exact WF | exact HN]. }
  destruct X as (g' & Eg & EL' & H). rewrite (bu_g _ _ _ _ _ _ _ _ _ _ _ P) in Eg. injection Eg as <-. destruct (H f) as (s1 & s2 & s3 & E & _ & _ & HW); [lia|]. rewrite E. cbn [map].
  rewrite (nthZ_map fg_normal fg0) by (rewrite (faces_len dim size nodeid vertex namen K g cn h nodecell cellnid P); exact Hf). exact HW.
Qed.

(** ** the face lists *)
Lemma label_of f : 0 <= f < zlen (ge_facenodes g) -> nthZ 0 (h_name h) f = 0 \/ 1 <= nthZ 0 (h_name h) f <= 2 * dim \/ nthZ 0 (h_name h) f = 10.
Proof. intros Hf. apply (face_tables dim size nodeid vertex namen K VR g cn h nodecell cellnid P f Hf). Qed.
Let LM := len_name dim size nodeid vertex namen K g cn h nodecell cellnid P.
Lemma in_where v f : In f (where_eq (h_name h) v) <-> 0 <= f < zlen (ge_facenodes g) /\ nthZ 0 (h_name h) f = v.
Proof. rewrite In_where, LM. tauto. Qed.
Lemma in_inner f : In f (ls_inner (dom_lists D)) <-> 0 <= f < zlen (ge_facenodes g) /\ nthZ 0 (h_name h) f = 0. Proof. apply in_where. Qed.
Lemma in_halo f : In f (ls_halo (dom_lists D)) <-> 0 <= f < zlen (ge_facenodes g) /\ nthZ 0 (h_name h) f = 10. Proof. apply in_where. Qed.
Lemma where_none v : 10 < v -> where_eq (h_name h) v = [].
Proof. intros Hv. destruct (where_eq (h_name h) v) as [|f l] eqn:E; [reflexivity|]. assert (HI : In f (where_eq (h_name h) v)) by (rewrite E; left; reflexivity). apply in_where in HI as (Hf & HI). pose proof (label_of f Hf). pose proof Hd. lia. Qed.
Lemma periodic_none : ls_periodic (dom_lists D) = [].
Proof.
  change (fl_pboundary (face_lists dim (h_name h)) = []). unfold face_lists. cbn [fl_pboundary]. rewrite !where_none by lia. destruct (dim =? 3); reflexivity.
Qed.
Lemma in_boundary f : In f (ls_boundary (dom_lists D)) <-> 0 <= f < zlen (ge_facenodes g) /\ 1 <= nthZ 0 (h_name h) f <= 2 * dim.
Proof.
  change (In f (fl_boundary (face_lists dim (h_name h))) <-> 0 <= f < zlen (ge_facenodes g) /\ 1 <= nthZ 0 (h_name h) f <= 2 * dim). unfold face_lists. cbn [fl_boundary]. rewrite np_sort_In.
  pose proof Hd as [E | E]; rewrite E; cbn [Z.eqb Pos.eqb]; rewrite !in_app_iff, !in_where; [intuition lia|]. intuition lia.
Qed.
Lemma listed_faces f : In f (all_faces (dom_lists D)) <-> 0 <= f < zlen (ge_facenodes g).
Proof.
  unfold all_faces. rewrite !in_app_iff, in_inner, in_halo, in_boundary, periodic_none. cbn [In]. split; [intros [X|[[]|[X|X]]]; exact (proj1 X)|]. intros Hf. pose proof (label_of f Hf). tauto.
Qed.
Lemma each_once : Permutation (all_faces (dom_lists D)) (range (zlen (ge_facenodes g))).
Proof.
  apply (Permutation_count_occ Z.eq_dec). intros f. destruct (Z_lt_le_dec f 0) as [H0|H0]; [|destruct (Z_lt_le_dec f (zlen (ge_facenodes g))) as [H1|H1]].
  1, 3: rewrite (proj1 (count_occ_not_In Z.eq_dec _ f)) by (rewrite listed_faces; lia); rewrite (proj1 (count_occ_not_In Z.eq_dec _ f)) by (rewrite in_range; lia); reflexivity.
  rewrite (proj1 (NoDup_count_occ' Z.eq_dec (range (zlen (ge_facenodes g)))) (NoDup_range _)) by (apply in_range; lia). unfold all_faces. rewrite periodic_none, !count_occ_app. cbn [count_occ].
  assert (Hf : 0 <= f < zlen (h_name h)) by (rewrite LM; lia).
  change (ls_inner (dom_lists D)) with (where_eq (h_name h) 0). change (ls_halo (dom_lists D)) with (where_eq (h_name h) 10). change (ls_boundary (dom_lists D)) with (fl_boundary (face_lists dim (h_name h))).
  rewrite !count_where by exact Hf. rewrite (proj1 (c16_boundary dim (h_name h) f Hd Hf)). pose proof (label_of f ltac:(lia)) as HB. set (l := nthZ 0 (h_name h) f) in *.
  assert (EM : mem l (if dim =? 3 then [1; 2; 3; 4; 5; 6] else [1; 2; 3; 4]) = (1 <=? l) && (l <=? 2 * dim)).
  { pose proof Hd as [E | E]; rewrite E; cbn [Z.eqb Pos.eqb mem existsb]; lia. }
  rewrite EM. pose proof Hd as HD2. destruct (Z.eqb_spec l 0) as [E0|N0]; destruct (Z.eqb_spec l 10) as [E10|N10]; destruct ((1 <=? l) && (l <=? 2 * dim)) eqn:EB; try reflexivity; exfalso; apply andb_true_iff in EB || apply andb_false_iff in EB; lia.
Qed.

(** ** cells and faces *)
Lemma on_face c f : iscell nodeid c -> 0 <= f < zlen (ge_facenodes g) -> In f (nthZ [] (cn_faceid cn) c) <-> has_facet dim nodeid c (Fs cn f).
Proof.
  intros Hc Hf. destruct (c11 dim (zlen vertex) (ocells dim vertex nodeid) (WFo dim vertex nodeid WF)) as (cn' & E & _ & _ & _ & H11). rewrite Hcn in E. injection E as <-.
  destruct (H11 c) as (fs' & Efs & Hlen & _ & Hin & _); [apply (iscell_o dim vertex nodeid), Hc|]. rewrite Efs. rewrite Hin by lia. apply has_facet_o. exact WF.
Qed.
Lemma row_nodup c : iscell nodeid c -> NoDup (nthZ [] (cn_faceid cn) c).
Proof.
  intros Hc. destruct (c11 dim (zlen vertex) (ocells dim vertex nodeid) (WFo dim vertex nodeid WF)) as (cn' & E & _ & _ & _ & H11). rewrite Hcn in E. injection E as <-.
  destruct (H11 c) as (fs' & Efs & Hlen & ND & _); [apply (iscell_o dim vertex nodeid), Hc|]. rewrite Efs. exact ND.
Qed.
Definition onb (c f : Z) : bool := (cell0 (dom_fv D) f =? c) || (fv_label (dom_fv D) f =? 0) && (cell1 (dom_fv D) f =? c).
Lemma cell0_at f : 0 <= f < zlen (ge_facenodes g) -> cell0 (dom_fv D) f = cleft cn f.
Proof. intros Hf. apply (face_tables dim size nodeid vertex namen K VR g cn h nodecell cellnid P f Hf). Qed.
Lemma onb_spec c f : 0 <= f < zlen (ge_facenodes g) -> onb c f = true <-> has_facet dim nodeid c (Fs cn f).
Proof.
  intros Hf. unfold onb. rewrite cell0_at by exact Hf. unfold cell1, fv_label. change (fv_cellid (dom_fv D)) with (h_cellid h). change (fv_name (dom_fv D)) with (h_name h).
  rewrite orb_true_iff, andb_true_iff, !Z.eqb_eq. destruct (fc f Hf) as (HL & [E0 b E1 E2 E3 E4 E5 | E0 E1 E2 E3 E4 | E0 E1 E2 E3]); rewrite E1; rewrite ?E0; change (nthZ 0 [cleft cn f; ?x] 1) with x.
  - change (nthZ 0 [cleft cn f; b] 1) with b. split; [intros [<-|(_ & <-)]; assumption|]. intros X. destruct (E4 c X); subst; auto.
  - split; [intros [<-|(X & _)]; [exact HL | lia] | intros X; left; symmetry; apply E2; exact X].
  - split; [intros [<-|(X & _)]; [exact HL | lia] | intros X; left; symmetry; apply E2; exact X].
Qed.
Lemma row_filter (all : list Z) c : Permutation all (range (zlen (ge_facenodes g))) -> iscell nodeid c -> Permutation (nthZ [] (cn_faceid cn) c) (filter (onb c) all).
Proof.
  intros PA Hc. apply NoDup_Permutation; [apply row_nodup; exact Hc | apply NoDup_filter; apply (Permutation_NoDup (Permutation_sym PA)), NoDup_range|].
  intros f. rewrite filter_In. assert (HI : In f all <-> 0 <= f < zlen (ge_facenodes g)). { rewrite <- in_range. split; apply Permutation_in; [exact PA | apply Permutation_sym; exact PA]. } rewrite HI. split.
  - intros X. destruct (has_of_faceid dim vertex nodeid cn c f WF Hcn Hc X) as (Hf & HH). rewrite <- EL in Hf. split; [exact Hf|]. apply onb_spec; assumption.
  - intros (Hf & X). apply on_face; [exact Hc | exact Hf|]. apply onb_spec; assumption.
Qed.
Lemma inner_distinct f : 0 <= f < zlen (ge_facenodes g) -> fv_label (dom_fv D) f = 0 -> cell0 (dom_fv D) f <> cell1 (dom_fv D) f.
Proof.
  intros Hf E. rewrite cell0_at by exact Hf. destruct (face_tables dim size nodeid vertex namen K VR g cn h nodecell cellnid P f Hf) as (_ & _ & _ & A & _). specialize (A E).
  change (cleft cn f <> nthZ 0 (nthZ [] (h_cellid h) f) 1). lia.
Qed.
Lemma lists_of_cells : lists_faces (dom_fv D) (dom_lists D) (cn_faceid cn).
Proof.
  assert (LF : zlen (cn_faceid cn) = zlen nodeid) by (destruct (faceid_row dim vertex nodeid WF cn Hcn 0) as (_ & X & _); [pose proof (vr_cells _ _ _ _ _ _ VR); split; lia | exact X]).
  split; [change (fv_centerc (dom_fv D)) with (map cg_center (ge_cells g)); rewrite LC; exact LF|]. split.
  - intros f Hf. apply listed_faces in Hf. apply inner_distinct. exact Hf.
  - intros c Hc. rewrite LF in Hc. apply (row_filter (all_faces (dom_lists D)) c each_once Hc).
Qed.
Lemma fv_ok : wf_fvdata dim (dom_fv D) /\ wf_lists dim (dom_fv D) (dom_lists D).
Proof.
  pose proof (face_ok dim size nodeid vertex namen K VR g cn h nodecell cellnid P nv di) as FO. destruct (wfa_len _ _ FO) as (A1 & A2 & A3 & A4 & A5 & A6). split.
  - constructor.
    + exact Hd.
    + split; [exact A3|]. split; [exact A4|]. split; [|split; [exact A5 | exact A6]]. change (zlen (map fg_center (ge_faces g)) = zlen (h_cellid h)). rewrite zlen_map, (faces_len dim size nodeid vertex namen K g cn h nodecell cellnid P), len_cellid. reflexivity.
    + intros f Hf. destruct (wfa_face _ _ FO f Hf) as (B1 & B2 & B3 & B4 & B5 & B6). split; [exact B1|]. split; [exact B2|]. split; [exact B5 | exact B6].
  - assert (FE : zlen (fv_cellid (dom_fv D)) = zlen (ge_facenodes g)) by exact len_cellid. red. rewrite FE. split; [|split; [|split]]; intros f Hf.
    + apply in_inner. exact Hf.
    + rewrite periodic_none in Hf. destruct Hf.
    + apply in_halo. exact Hf.
    + apply in_boundary. exact Hf.
Qed.
Lemma facelists_ok dir neu : (forall f, In f dir \/ In f neu -> on_boundary D f) ->
  lists_ok dim (dom_face D) {| fl_inner := ls_inner (dom_lists D); fl_periodic := ls_periodic (dom_lists D); fl_halo := ls_halo (dom_lists D); fl_dirichlet := dir; fl_neumann := neu |}.
Proof.
  intros H. assert (FE : zlen (fd_cellid (dom_face D)) = zlen (ge_facenodes g)) by exact len_cellid. red. rewrite FE. cbn [Model_interp.fl_inner Model_interp.fl_periodic Model_interp.fl_halo fl_dirichlet fl_neumann]. split; [|split; [|split]]; intros f Hf.
  + apply in_inner. exact Hf.
  + rewrite periodic_none in Hf. destruct Hf.
  + apply in_halo. exact Hf.
  + apply H in Hf. apply in_boundary in Hf as (Hf & Hn). split; [exact Hf|]. change (fd_name (dom_face D)) with (h_name h). pose proof (name_not_periodic dim size nodeid vertex namen K VR g cn h nodecell cellnid P f Hf) as (_ & NP). pose proof Hd. repeat split; [lia | exact NP | lia].
Qed.
Lemma limiter_ok W : wf_values W (zlen (dm_center D)) (zlen (dm_cellid D)) (zlen (dm_centerh D)) (rk_nhg K) -> wf_limdata dim (dom_lim D) W.
Proof.
  intros (W1 & W2 & W3 & W4). pose proof (face_ok dim size nodeid vertex namen K VR g cn h nodecell cellnid P nv di) as FO. destruct (wfa_len _ _ FO) as (A1 & A2 & A3 & A4 & A5 & A6).
  assert (LF : zlen (cn_faceid cn) = zlen nodeid) by (destruct (faceid_row dim vertex nodeid WF cn Hcn 0) as (_ & X & _); [pose proof (vr_cells _ _ _ _ _ _ VR); split; lia | exact X]).
  assert (EC : zlen (dm_center D) = zlen nodeid) by exact LC. rewrite EC in W1. change (zlen (rk_center K)) with (zlen (dm_centerh D)) in *.
  constructor.
  - exact Hd.
  - change (ld_faceid (dom_lim D)) with (cn_faceid cn). change (ld_centerc (dom_lim D)) with (dm_center D). rewrite LF, W1, EC. split; [reflexivity|]. split; [reflexivity|]. split; [exact A3|]. split; [exact A5|]. split; [|exact W2].
    change (zlen (map fg_center (ge_faces g)) = zlen (h_cellid h)). rewrite zlen_map, (faces_len dim size nodeid vertex namen K g cn h nodecell cellnid P), len_cellid. reflexivity.
  - intros i f Hi Hf. rewrite W1 in Hi. destruct (has_of_faceid dim vertex nodeid cn i f WF Hcn Hi Hf) as (Hf' & HH). rewrite <- EL in Hf'. fold (Fs cn f) in HH.
    cbv zeta. change (ld_cellid (dom_lim D)) with (h_cellid h). change (ld_name (dom_lim D)) with (h_name h). change (ld_halofid (dom_lim D)) with (h_halofid h). rewrite len_cellid, W1, W3. split; [exact Hf'|].
    destruct (fc f Hf') as (HL & [E0 b E1 E2 E3 E4 E5 | E0 E1 E2 E3 E4 | E0 E1 E2 E3]); rewrite E1; (split; [reflexivity|]; split; [exact (proj1 HL)|]).
    + left. split; [left; exact E0|]. split; [exact (proj1 E3)|]. destruct (E4 i HH); subst; [left; reflexivity | right; reflexivity].
    + right. left. split; [exact E0|]. symmetry. apply E2. exact HH.
    + right. right. split; [exact E0|]. split; [symmetry; apply E2; exact HH|]. change (zlen (dm_centerh D)) with (zlen (rk_center K)). rewrite (vr_centers _ _ _ _ _ _ VR). exact (proj1 E3).
  - intros i Hi. rewrite W1 in Hi. apply (faceid_row dim vertex nodeid WF cn Hcn i Hi).
Qed.

(** ** closed cells *)
Lemma normal_of f : 0 <= f < zlen (ge_facenodes g) -> nthZ vzero (fv_normal (dom_fv D)) f = fg_normal (facegeo_of dim vertex namen nodeid cn f).
Proof. apply (normal_at dim size nodeid vertex namen K g cn h nodecell cellnid P). Qed.
Lemma leaves_signed c f : 0 <= f < zlen (ge_facenodes g) ->
  P3 (leaves (dom_fv D) (fun f => px (nthZ vzero (fv_normal (dom_fv D)) f)) c f) (leaves (dom_fv D) (fun f => py (nthZ vzero (fv_normal (dom_fv D)) f)) c f)
     (leaves (dom_fv D) (fun f => pz (nthZ vzero (fv_normal (dom_fv D)) f)) c f) = (if onb c f then signed dim vertex namen nodeid cn c f else vzero).
Proof.
  intros Hf. unfold leaves, onb, signed. rewrite (normal_of f Hf). pose proof (inner_distinct f Hf) as ND. rewrite (cell0_at f Hf) in *. rewrite (Z.eqb_sym c (cleft cn f)).
  set (m := fg_normal (facegeo_of dim vertex namen nodeid cn f)). destruct m as [m1 m2 m3]. cbn [px py pz].
  destruct (Z.eqb_spec (cleft cn f) c) as [Ec|Nc]; destruct ((fv_label (dom_fv D) f =? 0) && (cell1 (dom_fv D) f =? c)) eqn:E1; cbn [orb].
  - apply andb_true_iff in E1 as (E1 & E2). apply Z.eqb_eq in E1, E2. exfalso. apply (ND E1). congruence.
  - f_equal; ring.
  - unfold pscal. cbn [px py pz]. f_equal; ring.
  - unfold vzero. f_equal; ring.
Qed.
Lemma closed_cells c : iscell nodeid c -> closed_cell (dom_fv D) (dom_lists D) c.
Proof.
  intros Hc. unfold closed_cell. rewrite (map_ext_in _ (fun f => if onb c f then signed dim vertex namen nodeid cn c f else vzero)) by (intros f Hf; apply leaves_signed, listed_faces; exact Hf).
  rewrite <- vsum_filter. rewrite <- (vsum_perm _ _ (Permutation_map _ (row_filter (all_faces (dom_lists D)) c each_once Hc))).
  apply (close_cell dim vertex nodeid WF cn Hcn c _ Hc). intros f Hf HH. apply signed_outward; [exact WF | exact Hcn | exact (vr_proper _ _ _ _ _ _ VR) | exact Hc | exact Hf | exact HH | exact NFL].
Qed.

(** ** volumes and measures *)
Lemma volume_at c : iscell nodeid c -> nthZ 0%R (map cg_volume (ge_cells g)) c = cg_volume (cellgeo_of dim vertex (cell nodeid c)) /\ (0 < nthZ 0%R (map cg_volume (ge_cells g)) c)%R.
Proof.
  intros Hc. assert (E : nthZ 0%R (map cg_volume (ge_cells g)) c = cg_volume (cellgeo_of dim vertex (cell nodeid c))).
  { rewrite (bu_ecs _ _ _ _ _ _ _ _ _ _ _ P), map_map. rewrite (nthZ_map (fun r => cg_volume (cellgeo_of dim vertex r)) []) by exact Hc. reflexivity. }
  split; [exact E|]. rewrite E. pose proof (NFL c Hc) as NF. destruct (wm_rows _ _ _ WF (cell nodeid c)) as (HL & _ & _); [apply nthZ_In; exact Hc|]. unfold cellgeo_of. unfold nonflat in NF. destruct Hd as [ED | ED]; rewrite ED in HL; rewrite ED; cbn [Z.eqb Pos.eqb].
  - destruct (list3 _ HL) as (a & b & c' & Er). rewrite Er in NF |- *. cbn [map] in NF. destruct NF as (_ & NF). change (0 < vol2 (V vertex a) (V vertex b) (V vertex c'))%R. rewrite vol2_turn. apply Rabs_pos_lt in NF. lra.
  - destruct (list4 _ HL) as (a & b & c' & d & Er). rewrite Er in NF |- *. cbn [map] in NF. destruct NF as (_ & NF). change (0 < vol3 (V vertex a) (V vertex b) (V vertex c') (V vertex d))%R. rewrite vol3_det. apply Rabs_pos_lt in NF. lra.
Qed.
Lemma mesure_at f : 0 <= f < zlen (ge_facenodes g) -> nthZ 0%R (map fg_mesure (ge_faces g)) f = vlen (fg_normal (facegeo_of dim vertex namen nodeid cn f)) /\ (0 < nthZ 0%R (map fg_mesure (ge_faces g)) f)%R.
Proof.
  intros Hf. assert (Hf' : 0 <= f < zlen (cn_faces cn)) by lia. rewrite (nthZ_map fg_mesure fg0) by (rewrite (faces_len dim size nodeid vertex namen K g cn h nodecell cellnid P); exact Hf).
  rewrite (facegeo_at dim size nodeid vertex namen K g cn h nodecell cellnid P f Hf). rewrite (proj1 (mesure_len dim vertex namen nodeid WF cn Hcn f Hf')). split; [reflexivity|].
  unfold vlen. apply sqrt_lt_R0. apply (normal_nonzero dim vertex namen nodeid WF cn Hcn NFL f Hf').
Qed.
Lemma len_faceid : zlen (cn_faceid cn) = zlen nodeid.
Proof. destruct (faceid_row dim vertex nodeid WF cn Hcn 0) as (_ & X & _); [pose proof (vr_cells _ _ _ _ _ _ VR); split; lia | exact X]. Qed.
Lemma timestep_ok vel : zlen vel = zlen (dm_center D) -> wf_timestep dim vel (dm_normal D) (dm_mesure D) (dm_volume D) (dm_faceid D).
Proof.
  intros Hv. change (zlen (dm_center D)) with (zlen (map cg_center (ge_cells g))) in Hv. rewrite LC in Hv. change (dm_faceid D) with (cn_faceid cn). change (dm_volume D) with (map cg_volume (ge_cells g)). change (dm_mesure D) with (map fg_mesure (ge_faces g)). change (dm_normal D) with (map fg_normal (ge_faces g)).
  constructor; rewrite ?len_faceid.
  - exact Hd.
  - rewrite !zlen_map. rewrite (bu_ecs _ _ _ _ _ _ _ _ _ _ _ P), zlen_map. auto.
  - intros i Hi. apply volume_at. exact Hi.
  - intros i Hi. split; [apply (faceid_row dim vertex nodeid WF cn Hcn i Hi)|]. intros f Hf. destruct (has_of_faceid dim vertex nodeid cn i f WF Hcn Hi Hf) as (Hf' & _). rewrite <- EL in Hf'.
    split; [rewrite zlen_map, (faces_len dim size nodeid vertex namen K g cn h nodecell cellnid P); exact Hf' | apply mesure_at; exact Hf'].
Qed.

(** ** boundary conditions *)
Lemma no_periodic_side l : In l (Spec_bc.sides dim) -> ~ side_periodic (dom_bc D) l.
Proof.
  intros Hl H. unfold side_periodic in H. change (bd_name (dom_bc D)) with (h_name h) in H. apply In_nthZ with (d := 0) in H as (f & Hf & E). rewrite LM in Hf. pose proof (label_of f Hf) as HB. pose proof Hd as HD2.
  unfold Spec_bc.sides in Hl. destruct l; cbn [periodic_label] in E; try lia. destruct (dim =? 3); cbn in Hl; intuition discriminate.
Qed.
Lemma haloghost_entry k e : 0 <= k < zlen vertex -> In e (nthZ [] (pad_rows (rk_hg K)) k) -> g_last e <> -1 -> In e (nthZ [] (rk_hg K) k).
Proof.
  intros Hk He Hl. destruct (haloghosts_padded dim size nodeid vertex namen K VR) as (_ & G4). rewrite <- (proj2 (G4 k Hk)). apply filter_In. split; [exact He|]. apply negb_true_iff, Z.eqb_neq. exact Hl.
Qed.
Lemma bc_ok : wf_bcdom (dom_bc D).
Proof.
  destruct (hf_len _ _ _ _ _ _ _ _ HF) as (L1 & L2 & L3 & L4 & L5). destruct (haloghosts_padded dim size nodeid vertex namen K VR) as (G3 & G4). destruct (vr_haloghosts _ _ _ _ _ _ VR) as (_ & NH & VH).
  constructor.
  - exact Hd.
  - cbn [dom_bc bd_nbcells bd_nbnodes bd_nbhalos bd_sizehg]. change (dm_nhg D) with (rk_nhg K). repeat split; try apply zlen_nonneg. exact NH.
  - cbn [dom_bc bd_fcenter bd_name bd_cellid bd_oldname bd_nbnodes bd_vertex bd_hg bd_hginfo D assembled dm_fcenter dm_name dm_cellid dm_old dm_vertex dm_haloghost].
    rewrite !zlen_map, (faces_len dim size nodeid vertex namen K g cn h nodecell cellnid P), LM, L1. split; [reflexivity|]. split; [reflexivity|]. split; [exact HN|]. split; [reflexivity|]. split; [exact G3|]. change (zlen (pad_pts (rk_info K)) = zlen vertex). unfold pad_pts. rewrite zlen_map. apply (proj1 (vr_info _ _ _ _ _ _ VR)).
  - intros f Hf. change (0 <= f < zlen (h_name h)) in Hf. rewrite LM in Hf. destruct (face_tables dim size nodeid vertex namen K VR g cn h nodecell cellnid P f Hf) as (A1 & A2 & A3 & _).
    change (bd_cellid (dom_bc D)) with (h_cellid h). change (bd_nbcells (dom_bc D)) with (zlen (map cg_center (ge_cells g))). rewrite LC, A2. split; [lia | exact A3].
  - intros i Hi. change (0 <= i < zlen vertex) in Hi. change (bd_hg (dom_bc D)) with (pad_rows (rk_hg K)). change (bd_hginfo (dom_bc D)) with (pad_pts (rk_info K)). split.
    + destruct (vr_info _ _ _ _ _ _ VR) as (I1 & I2). destruct (vr_haloghosts _ _ _ _ _ _ VR) as (I3 & _). apply pad_pts_like; [lia | intros k Hk; apply I2; lia | lia].
    + intros e He. destruct (Z.eq_dec (g_last e) (-1)) as [El|El]; [left; exact El|right]. pose proof (haloghost_entry i e Hi He El) as HI. destruct (VH i e Hi HI) as (X1 & X2 & _). split; [exact X1|].
      change (bd_nbhalos (dom_bc D)) with (zlen (rk_center K)). rewrite (vr_centers _ _ _ _ _ _ VR). exact X2.
  - intros i Hi. change (In i (where_eq (h_nodename h) 10)) in Hi. apply In_where in Hi as (Hi & _). rewrite L3 in Hi. exact Hi.
  - intros l H. assert (EO : l = LOther). { unfold side_periodic in H. change (bd_name (dom_bc D)) with (h_name h) in H. apply In_nthZ with (d := 0) in H as (f & Hf & E). rewrite LM in Hf. pose proof (label_of f Hf) as HB. pose proof Hd as HD2.
    destruct l; cbn [periodic_label] in E; try lia. reflexivity. } rewrite EO in *. exact H.
  - intros l Hl H. exfalso. exact (no_periodic_side l Hl H).
  - intros l m e Hl H. exfalso. exact (no_periodic_side l Hl H).
Qed.

(** ** linear systems *)
Lemma in_sysinner f dir : In f (sl_inner (dom_syslists D dir)) <-> 0 <= f < zlen (ge_facenodes g) /\ nthZ 0 (h_name h) f = 0.
Proof.
  change (In f (np_sort (where_eq (h_name h) 0 ++ where_eq (h_name h) 11 ++ where_eq (h_name h) 33 ++ (if dim =? 3 then (if dim =? 3 then where_eq (h_name h) 55 else []) else []))) <-> 0 <= f < zlen (ge_facenodes g) /\ nthZ 0 (h_name h) f = 0).
  rewrite np_sort_In, !in_app_iff, (where_none 11), (where_none 33), (where_none 55) by lia. rewrite in_where. destruct (dim =? 3); cbn [In]; tauto.
Qed.
Lemma real_haloghosts k : 0 <= k < zlen vertex -> nthZ 0 (h_nodename h) k <> 10 -> real_ghosts (nthZ [] (pad_rows (rk_hg K)) k) = [].
Proof.
  intros Hk Hn. destruct (haloghosts_padded dim size nodeid vertex namen K VR) as (_ & G4). rewrite (proj2 (G4 k Hk)). destruct (nthZ [] (rk_hg K) k) as [|e l] eqn:E; [reflexivity|]. exfalso. apply Hn.
  destruct (vr_haloghosts _ _ _ _ _ _ VR) as (_ & _ & VH). destruct (VH k e Hk) as (_ & _ & c & F & hh & HFa & HkF & HC); [rewrite E; left; reflexivity|].
  apply (proj1 (hf_node _ _ _ _ _ _ _ _ HF k Hk)). destruct (c11 dim (zlen vertex) _ (WFo dim vertex nodeid WF)) as (c' & Ec' & _ & HFs & _). rewrite Hcn in Ec'. injection Ec' as <-.
  assert (HI : In F (cn_faces cn)) by (apply HFs; exists c; apply has_facet_o; [exact WF | exact HFa]). apply In_nthZ with (d := []) in HI. destruct HI as (f & Hf & EF). rewrite <- EL in Hf.
  pose proof (bu_pf _ _ _ _ _ _ _ _ _ _ _ P f Hf) as PF. rewrite EF in PF. exists f, hh. split; [exact Hf|]. split; [apply (Permutation_in k (Permutation_sym PF)); exact HkF|]. unfold cutf. apply (cut_perm K F); [apply Permutation_sym; exact PF | exact HC].
Qed.
Lemma sys_ok bcd dir : variables dim (dom_node D) = Ok nv -> face_gradient_info dim (dom_face D) = Ok di -> (forall f, In f dir -> on_boundary D f) ->
  wf_lsys dim (dom_sys D bcd) (dom_syslists D dir) (zlen (ge_facenodes g)) (rk_nhg K) /\ regular dim (dom_sys D bcd) (dom_syslists D dir) /\
  forall pn pf, zlen pn = zlen (dm_vertex D) -> zlen pf = zlen (dm_cellid D) -> wf_bord (dom_sys D bcd) (dom_syslists D dir) {| pb_node := pn; pb_face := pf |}.
Proof.
  intros EV EF Hdir. destruct (vr_haloghosts _ _ _ _ _ _ VR) as (_ & _ & VH).
  destruct (haloghosts_padded dim size nodeid vertex namen K VR) as (G3 & G4). destruct (ghosts_padded dim size nodeid vertex namen K VR g cn h nodecell cellnid P) as (G1 & G2).
  assert (NC : Spec_linsys.nbcells (dom_sys D bcd) = zlen nodeid) by exact LC. assert (NHa : Spec_linsys.nbhalos (dom_sys D bcd) = zlen (rk_ext K)) by exact (vr_centers _ _ _ _ _ _ VR).
  assert (FE : zlen (fd_cellid (sy_G (dom_sys D bcd))) = zlen (ge_facenodes g)) by exact len_cellid.
  assert (EH : size = 1 \/ 1 < size) by (pose proof (vr_size _ _ _ _ _ _ VR); lia).
  split; [|split].
  - constructor; rewrite ?NC, ?NHa, ?FE.
    + exact (node_ok dim size nodeid vertex namen K VR g cn h nodecell cellnid P nv di).
    + exact EV.
    + exact (face_ok dim size nodeid vertex namen K VR g cn h nodecell cellnid P nv di).
    + exact EF.
    + split; [reflexivity|]. split; reflexivity.
    + split; [|split; [exact (proj1 (vr_cellnumbers _ _ _ _ _ _ VR)) | reflexivity]]. change (zlen (map cg_volume (ge_cells g)) = zlen nodeid). rewrite (bu_ecs _ _ _ _ _ _ _ _ _ _ _ P), !zlen_map. reflexivity.
    + intros hh Hh. change (0 < zlen (nthZ [] (rk_ext K) hh)). destruct EH as [E1|E1].
      * rewrite (vr_alone _ _ _ _ _ _ VR E1) in Hh. cbn in Hh. lia.
      * destruct (vr_numbers _ _ _ _ _ _ VR E1) as (_ & _ & WH & _). destruct (WH hh Hh) as (X & _). rewrite X. pose proof Hd. lia.
    + intros k Hk. change (0 <= k < zlen vertex) in Hk. split; [exact (proj1 (proj2 (node_row_of dim size nodeid vertex namen K g cn h nodecell cellnid P k Hk)))|]. split.
      * rewrite <- (vr_centers _ _ _ _ _ _ VR). exact (proj1 (halo_row_of dim size nodeid vertex namen K VR g cn h nodecell cellnid P k Hk)).
      * exact (proj1 (periodic_row nodeid (zlen vertex) k Hk)).
    + intros k e Hk He. change (0 <= k < zlen vertex) in Hk. change (nd_ghost (sy_N (dom_sys D bcd))) with (pad_rows (map (map entry_of) (h_nodeghost h))) in He. rewrite (proj2 (G2 k Hk)) in He.
      destruct (ghost_entries dim size nodeid vertex namen K VR g cn h nodecell cellnid P k e Hk He) as (f & Hf & _ & _ & ->). cbn [g_cell]. exact (proj1 (proj1 (fc f Hf))).
    + intros k e Hk He. change (0 <= k < zlen vertex) in Hk. change (nd_haloghost (sy_N (dom_sys D bcd))) with (pad_rows (rk_hg K)) in He. rewrite (proj2 (G4 k Hk)) in He. destruct (VH k e Hk He) as (_ & X & _). exact X.
    + intros f Hf. apply in_sysinner in Hf as (Hf & E). split; [exact Hf | left; exact E].
    + intros f Hf. apply in_where in Hf. exact Hf.
    + intros f Hf. apply Hdir, in_boundary in Hf as (Hf & Hn). split; [exact Hf|]. cbv zeta. change (fd_name (sy_G (dom_sys D bcd))) with (h_name h). pose proof (name_not_periodic dim size nodeid vertex namen K VR g cn h nodecell cellnid P f Hf) as (_ & NP). pose proof Hd. repeat split; [lia | exact NP | lia].
  - constructor; rewrite ?NC.
    + intros c Hc. change (nthZ 0%R (map cg_volume (ge_cells g)) c <> 0%R). pose proof (proj2 (volume_at c Hc)). lra.
    + exact (proj2 (vr_cellnumbers _ _ _ _ _ _ VR)).
    + intros k Hk Hn. change (0 <= k < zlen vertex) in Hk. change (nthZ 0 (h_nodename h) k <> 10) in Hn. split; [|exact (real_haloghosts k Hk Hn)].
      apply (proj2 (proj2 (halo_row_of dim size nodeid vertex namen K VR g cn h nodecell cellnid P k Hk))). intros X. apply Hn. apply (proj1 (hf_node _ _ _ _ _ _ _ _ HF k Hk) X).
    + intros k Hk X. exfalso. change (0 <= k < zlen vertex) in Hk. apply X. exact (proj2 (periodic_row nodeid (zlen vertex) k Hk)).
    + intros f Hf. assert (Hf' : 0 <= f < zlen (ge_facenodes g)). { destruct Hf as [X|[X|X]]; [apply in_sysinner in X; tauto | apply in_where in X; tauto | apply Hdir, in_boundary in X; tauto]. }
      split; [exact (normals_of_nodes f Hf')|]. pose proof (faces_two_sided f Hf') as X. unfold two_sided in X. cbv zeta in X. change (dm_dim D) with dim in X.
      change (side vertex (nthZ [] (ge_facenodes g) f) (fst (face_other dim (dom_face D) f)) <> side vertex (nthZ [] (ge_facenodes g) f) (face_left (dom_face D) f)).
      change (dm_vertex D) with vertex in X. change (dm_facenodes D) with (ge_facenodes g) in X. set (a := side vertex (nthZ [] (ge_facenodes g) f) (fst (face_other dim (dom_face D) f))) in *. set (b := side vertex (nthZ [] (ge_facenodes g) f) (face_left (dom_face D) f)) in *.
      intros E. rewrite E in X. pose proof (Rle_0_sqr b) as Q. unfold Rsqr in Q. lra.
  - intros pn pf Hpn Hpf. split; [exact Hpn|]. split; [exact Hpf|]. intros f k Hf Hk. apply Hdir, in_boundary in Hf as (Hf & Hn). change (In k (nthZ [] (ge_facenodes g) f)) in Hk.
    destruct (face_nodes dim size nodeid vertex namen K VR g cn h nodecell cellnid P f Hf) as (_ & _ & HR). specialize (HR k Hk).
    destruct (ghost_entry_of dim size nodeid vertex namen K VR g cn h nodecell cellnid P k f HR Hf Hk Hn) as (e & He). destruct (G2 k HR) as ((_ & HP & _) & ER). rewrite <- ER in He.
    intros X. change (g_cell (nthZ gpad (nthZ [] (pad_rows (map (map entry_of) (h_nodeghost h))) k) 0) = -1) in X. rewrite (HP X) in He. destruct He.
Qed.

(** ** shallow-water cells *)
Lemma sw_once : Permutation (Spec_sw.sw_faces (dom_lists D)) (range (zlen (ge_facenodes g))).
Proof. pose proof each_once as PE. unfold all_faces in PE. rewrite periodic_none in PE. exact PE. Qed.
(** the sign of the normal seen from a cell of the face *)
Lemma nf_sign c f : iscell nodeid c -> 0 <= f < zlen (ge_facenodes g) -> has_facet dim nodeid c (Fs cn f) ->
  out_normal dim vertex namen nodeid cn c f = signed dim vertex namen nodeid cn c f.
Proof.
  intros Hc Hf HH. assert (Hf' : 0 <= f < zlen (cn_faces cn)) by lia. unfold out_normal, signed. cbv zeta. destruct (fc f Hf) as (HL & HC).
  destruct (normal_eps dim vertex namen nodeid WF cn Hcn f Hf') as (e & He & En & _). fold (Fs cn f) in En.
  pose proof (left_strict dim vertex namen nodeid WF cn Hcn f Hf' (NFL _ (proj1 HL))) as LS. change (fg_center (facegeo_of dim vertex namen nodeid cn f)) with (mid vertex (Fs cn f)) in *.
  set (m := fg_normal (facegeo_of dim vertex namen nodeid cn f)) in *.
  change (pdot (psub (centerc dim vertex nodeid c) (mid vertex (Fs cn f))) m) with (vdot (vsub (centerc dim vertex nodeid c) (mid vertex (Fs cn f))) m).
  destruct (Z.eqb_spec c (cleft cn f)) as [->|Nc].
  - destruct (Rlt_dec _ _) as [_|X]; [reflexivity | contradiction].
  - destruct (Rlt_dec _ _) as [X|_]; [exfalso | reflexivity].
    assert (DS : forall y, vdot (vsub y (mid vertex (Fs cn f))) m = (e * (kap dim * side vertex (Fs cn f) y))%R).
    { intros y. rewrite <- (side_point dim vertex (Fs cn f) y Hd (facet_zlen _ _ _ (proj2 HL))). rewrite En. unfold vdot, pscal. cbn [px py pz]. ring. }
    rewrite DS in X, LS. pose proof (other_side f Hf) as OS. pose proof (kap_pos dim) as KP.
    destruct HC as [E0 b E1 E2 E3 E4 E5 | E0 E1 E2 E3 E4 | E0 E1 E2 E3]; [|exact (Nc (proj2 E2 c HH)) | exact (Nc (proj2 E2 c HH))].
    assert (c = b) by (destruct (E4 c HH); [contradiction | assumption]). subst b.
    assert (EO : fst (face_other dim (dom_face D) f) = centerc dim vertex nodeid c).
    { unfold face_other. change (fd_name (dom_face D)) with (h_name h). rewrite E0. cbn [Z.eqb fst]. change (fd_cellid (dom_face D)) with (h_cellid h). rewrite E1. apply (center_at dim size nodeid vertex namen K g cn h nodecell cellnid P c Hc). }
    rewrite EO in OS. set (s := side vertex (Fs cn f) (centerc dim vertex nodeid c)) in *. set (t := side vertex (Fs cn f) (centerc dim vertex nodeid (cleft cn f))) in *.
    assert (e * s < 0)%R by (apply Rmult_lt_reg_l with (kap dim); [exact KP|]; lra). assert (e * t < 0)%R by (apply Rmult_lt_reg_l with (kap dim); [exact KP|]; lra).
    assert (0 < (e * s) * (e * t))%R by (replace ((e * s) * (e * t))%R with ((- (e * s)) * (- (e * t)))%R by ring; apply Rmult_lt_0_compat; lra).
    replace ((e * s) * (e * t))%R with (s * t)%R in * by (destruct He as [-> | ->]; ring). lra.
Qed.
Lemma nf_rows : dim = 2 -> ge_nf g = map (fun c => map (out_normal dim vertex namen nodeid cn c) (nthZ [] (cn_faceid cn) c)) (range (zlen nodeid)).
Proof.
  intros E2. destruct (build_geometry_ok dim vertex namen nodeid WF HN) as (cn' & g' & E & Hcn' & _ & _ & _ & En & _). rewrite (bu_g _ _ _ _ _ _ _ _ _ _ _ P) in E. injection E as <-. rewrite Hcn in Hcn'. injection Hcn' as <-. exact (En E2).
Qed.
Lemma nf_row c : dim = 2 -> iscell nodeid c -> nthZ [] (ge_nf g) c = map (out_normal dim vertex namen nodeid cn c) (nthZ [] (cn_faceid cn) c).
Proof. intros E2 Hc. rewrite (nf_rows E2). rewrite (nthZ_map _ 0) by (rewrite zlen_range; [exact Hc | apply zlen_nonneg]). rewrite nthZ_range by exact Hc. reflexivity. Qed.
Lemma sw_ok : dim = 2 -> Spec_sw.wf_swcells (dom_fv D) (dom_lists D) (dom_sw D).
Proof.
  intros E2. assert (ECF : zlen (cn_cellfid cn) = zlen nodeid /\ forall i, iscell nodeid i -> zlen (nthZ [] (cn_cellfid cn) i) = dim + 1 /\ forall j, 0 <= j < dim + 1 ->
    let f := nthZ 0 (nthZ [] (cn_faceid cn) i) j in let m := nthZ 0 (nthZ [] (cn_cellfid cn) i) j in
      (m = -1 <-> forall k, has_facet dim nodeid k (Fs cn f) -> k = i) /\ (m <> -1 -> m <> i /\ has_facet dim nodeid m (Fs cn f))).
  { destruct (c13 dim (zlen vertex) _ (WFo dim vertex nodeid WF) (conforming_o dim vertex nodeid WF (proper_conforming dim size nodeid vertex namen K VR))) as (c' & Ec' & L13 & H13). rewrite Hcn in Ec'. injection Ec' as <-.
    rewrite zlen_ocells in L13. split; [exact L13|]. intros i Hi. destruct (H13 i) as (A & B); [apply iscell_o; exact Hi|]. split; [exact A|]. intros j Hj. destruct (B j Hj) as (f & m & <- & <- & B1 & B2). cbv zeta. split.
    - rewrite B1. split; intros X k Hk; apply X, (has_facet_o dim vertex nodeid WF); exact Hk.
    - intros X. destruct (B2 X) as (Y1 & Y2 & _). split; [exact Y1|]. apply (has_facet_o dim vertex nodeid WF). exact Y2. }
  destruct ECF as (LCF & ECF). assert (CE : zlen (fv_centerc (dom_fv D)) = zlen nodeid) by exact LC. red. rewrite CE.
  change (Model_sw.cl_faceid (dom_sw D)) with (cn_faceid cn). change (Model_sw.cl_nodeid (dom_sw D)) with (ocells dim vertex nodeid). change (Model_sw.cl_nf (dom_sw D)) with (ge_nf g). change (Model_sw.cl_cellfid (dom_sw D)) with (cn_cellfid cn).
  split; [exact len_faceid|]. split; [apply zlen_ocells|]. split; [rewrite (nf_rows E2), zlen_map, zlen_range by apply zlen_nonneg; reflexivity|]. split; [exact LCF|]. intros c Hc.
  destruct (faceid_row dim vertex nodeid WF cn Hcn c Hc) as (HLf & _ & Hrow). assert (HL3 : zlen (nthZ [] (cn_faceid cn) c) = 3) by lia.
  assert (HR : forall j, 0 <= j < 3 -> 0 <= nthZ 0 (nthZ [] (cn_faceid cn) c) j < zlen (ge_facenodes g) /\ has_facet dim nodeid c (Fs cn (nthZ 0 (nthZ [] (cn_faceid cn) c) j))).
  { intros j Hj. destruct (has_of_faceid dim vertex nodeid cn c (nthZ 0 (nthZ [] (cn_faceid cn) c) j) WF Hcn Hc) as (A & B); [apply nthZ_In; lia|]. rewrite <- EL in A. split; assumption. }
  assert (ES : forall j, 0 <= j < 3 -> nthZ vzero (nthZ [] (ge_nf g) c) j = signed dim vertex namen nodeid cn c (nthZ 0 (nthZ [] (cn_faceid cn) c) j)).
  { intros j Hj. rewrite (nf_row c E2 Hc). rewrite (nthZ_map _ 0) by lia. destruct (HR j Hj). apply nf_sign; assumption. }
  constructor; change (Model_sw.cl_faceid (dom_sw D)) with (cn_faceid cn); change (Model_sw.cl_nodeid (dom_sw D)) with (ocells dim vertex nodeid); change (Model_sw.cl_nf (dom_sw D)) with (ge_nf g); change (Model_sw.cl_cellfid (dom_sw D)) with (cn_cellfid cn); change (Model_sw.cl_vertex (dom_sw D)) with vertex.
  - split; [exact HL3|]. apply (row_filter _ c sw_once Hc).
  - intros f Hf. destruct (has_of_faceid dim vertex nodeid cn c f WF Hcn Hc Hf) as (Hf' & _). apply inner_distinct. lia.
  - destruct (wm_rows _ _ _ (WFo dim vertex nodeid WF) (cell (ocells dim vertex nodeid) c)) as (HL & _ & HRn); [apply nthZ_In; rewrite zlen_ocells; exact Hc|].
    change (nthZ [] (ocells dim vertex nodeid) c) with (cell (ocells dim vertex nodeid) c). split; [lia|]. apply HRn, nthZ_In. lia.
  - rewrite (nf_row c E2 Hc), zlen_map. split; [exact HL3|]. rewrite (proj1 (ECF c Hc)). lia.
  - intros j Hj. cbv zeta. rewrite (ES j Hj). destruct (HR j Hj) as (Hf & HH). rewrite (normal_of _ Hf), (cell0_at _ Hf). unfold signed. set (f := nthZ 0 (nthZ [] (cn_faceid cn) c) j) in *. rewrite (Z.eqb_sym c).
    split; intros X; [rewrite X, Z.eqb_refl; auto|]. replace (cleft cn f =? c) with false by (symmetry; apply Z.eqb_neq; exact X). unfold pscal. cbn [px py]. split; ring.
  - intros j Hj. cbv zeta. intros E0. destruct (HR j Hj) as (Hf & HH). destruct (proj2 (ECF c Hc) j ltac:(lia)) as (B1 & B2). set (f := nthZ 0 (nthZ [] (cn_faceid cn) c) j) in *. set (m := nthZ 0 (nthZ [] (cn_cellfid cn) c) j) in *.
    change (nthZ 0 (h_name h) f = 0) in E0. rewrite (cell0_at f Hf). unfold cell1. change (fv_cellid (dom_fv D)) with (h_cellid h).
    destruct (fc f Hf) as (HL & [_ b E1 E2' E3 E4 E5 | X _ _ _ _ | X _ _ _]); [|lia|lia]. rewrite E1. change (nthZ 0 [cleft cn f; b] 1) with b.
    assert (NM : m <> -1). { intros X. pose proof (proj1 B1 X) as X1. pose proof (X1 _ HL). pose proof (X1 _ E3). lia. }
    destruct (B2 NM) as (B3 & B4). destruct (E4 _ B4) as [Em|Em], (E4 _ HH) as [Ec|Ec]; try congruence.
    + replace (cleft cn f =? c) with false by lia. exact Em.
    + rewrite Ec, Z.eqb_refl. exact Em.
  - cbv zeta. rewrite !ES by lia.
    pose proof (close_cell dim vertex nodeid WF cn Hcn c (signed dim vertex namen nodeid cn c) Hc) as CL. specialize (CL ltac:(intros f Hf HH; apply signed_outward; [exact WF | exact Hcn | exact (vr_proper _ _ _ _ _ _ VR) | exact Hc | exact Hf | exact HH | exact NFL])).
    destruct (wm_rows _ _ _ (WFo dim vertex nodeid WF) (cell (ocells dim vertex nodeid) c)) as (HL & _ & _); [apply nthZ_In; rewrite zlen_ocells; exact Hc|]. assert (HLx : zlen (cell (ocells dim vertex nodeid) c) = 3) by lia. destruct (list3 _ HLx) as (x & y & z & Er).
    assert (RS : forall j, 0 <= j < 3 -> exists e : R, (e = 1 \/ e = -1)%R /\ signed dim vertex namen nodeid cn c (nthZ 0 (nthZ [] (cn_faceid cn) c) j) = pscal e (raw_normal vertex (nthZ [] (local_facets dim [x; y; z]) j))).
    { intros j Hj. destruct (HR j Hj) as (Hf & HH). destruct (Hrow j ltac:(lia)) as (_ & PJ). rewrite Er in PJ. destruct (normal_eps dim vertex namen nodeid WF cn Hcn (nthZ 0 (nthZ [] (cn_faceid cn) c) j) ltac:(lia)) as (e & He & En & _).
      destruct (raw_perm vertex _ _ PJ) as [EP|EP]; rewrite EP in En; unfold signed; rewrite En; destruct (c =? _).
      - exists e. auto.
      - exists (- e)%R. split; [destruct He; lra|]. unfold pscal. cbn [px py pz]. f_equal; ring.
      - exists (- e)%R. split; [destruct He; lra|]. unfold pscal. cbn [px py pz]. f_equal; ring.
      - exists e. split; [exact He|]. unfold pscal. cbn [px py pz]. f_equal; ring. }
    destruct (RS 0 ltac:(lia)) as (e0 & He0 & R0), (RS 1 ltac:(lia)) as (e1 & He1 & R1). clear RS.
    destruct (list3 _ HL3) as (f0 & f1 & f2 & Ef). rewrite Ef in *. change (nthZ 0 [f0; f1; f2] 0) with f0 in *. change (nthZ 0 [f0; f1; f2] 1) with f1 in *. change (nthZ 0 [f0; f1; f2] 2) with f2 in *.
    cbn [map] in CL. apply (f_equal (fun v => (px v, py v))) in CL. unfold vsum in CL. cbn [fold_right vadd px py vzero] in CL. injection CL as C1 C2. split; [lra|]. split; [lra|].
    assert (NT : turn (V vertex x) (V vertex y) (V vertex z) <> 0%R).
    { apply (nonflat_side dim vertex nodeid WF cn Hcn c [x; y] z); [|rewrite E2; reflexivity | apply NFL; exact Hc]. apply Permutation_sym. rewrite <- (ocell_perm dim vertex nodeid WF c Hc), Er. apply (Permutation_cons_append [x; y] z). }
    rewrite R0, R1. replace (local_facets dim [x; y; z]) with (local_facets 2 [x; y; z]) by (rewrite E2; reflexivity). change (nthZ [] (local_facets 2 [x; y; z]) 0) with [x; y]. change (nthZ [] (local_facets 2 [x; y; z]) 1) with [y; z]. unfold raw_normal. cbn [map]. unfold pscal. cbn [px py]. unfold turn in NT.
    intros X. apply NT. destruct He0 as [-> | ->], He1 as [-> | ->]; lra.
Qed.

Lemma order_ok : dim = 2 -> forall c, 0 <= c < zlen nodeid -> exists a b d, nthZ [] (dm_cellnodes D) c = [a; b; d] /\
     (0 < turn (at_node (dm_vertex D) a) (at_node (dm_vertex D) b) (at_node (dm_vertex D) d))%R /\
     let nodes_of j := nthZ [] (dm_facenodes D) (nthZ 0 (nthZ [] (dm_faceid D) c) j) in
     Permutation (nodes_of 0) [a; b] /\ Permutation (nodes_of 1) [b; d] /\ Permutation (nodes_of 2) [d; a].
Proof.
  intros E2 c Hc. change (dm_cellnodes D) with (ocells dim vertex nodeid). change (dm_faceid D) with (cn_faceid cn).
  change (dm_facenodes D) with (ge_facenodes g). change (dm_vertex D) with vertex.
  destruct (faceid_row dim vertex nodeid WF cn Hcn c Hc) as (_ & _ & Hrow).
  assert (HR : forall j, 0 <= j < 3 -> Permutation (nthZ [] (ge_facenodes g) (nthZ 0 (nthZ [] (cn_faceid cn) c) j)) (nthZ [] (local_facets 2 (cell (ocells dim vertex nodeid) c)) j)).
  { intros j Hj. destruct (Hrow j ltac:(lia)) as (A & B). rewrite (bu_pf _ _ _ _ _ _ _ _ _ _ _ P) by lia. rewrite B, E2. reflexivity. }
  clear Hrow. pose proof (NFL c Hc) as NF. unfold cell in HR, NF. unfold ocells in *. rewrite (nthZ_map _ []) in * by exact Hc.
  destruct (wm_rows _ _ _ WF (nthZ [] nodeid c)) as (HL & _ & _); [apply nthZ_In; exact Hc|]. rewrite E2 in HL. destruct (list3 _ HL) as (a & b & d & Er). rewrite Er in *.
  assert (EN : cg_nodes (cellgeo_of dim vertex [a; b; d]) = if Rlt_dec (turn (V vertex a) (V vertex b) (V vertex d)) 0 then [a; d; b] else [a; b; d]).
  { rewrite E2. cbn [cellgeo_of Z.eqb Pos.eqb]. unfold cellgeo_of. cbn [Z.eqb Pos.eqb]. unfold cellgeo2. cbn [cg_nodes]. reflexivity. }
  rewrite EN in *. unfold nonflat in NF. cbn [map] in NF. destruct NF as (_ & NF). change (turn (V vertex a) (V vertex b) (V vertex d) <> 0)%R in NF.
  destruct (Rlt_dec _ 0) as [L|L].
  - exists a, d, b. split; [reflexivity|]. split.
    + change (0 < turn (V vertex a) (V vertex d) (V vertex b))%R. unfold turn in *. lra.
    + cbv zeta. split; [exact (HR 0 ltac:(lia))|]. split; [exact (HR 1 ltac:(lia)) | exact (HR 2 ltac:(lia))].
  - exists a, b, d. split; [reflexivity|]. split.
    + change (0 < turn (V vertex a) (V vertex b) (V vertex d))%R. lra.
    + cbv zeta. split; [exact (HR 0 ltac:(lia))|]. split; [exact (HR 1 ltac:(lia)) | exact (HR 2 ltac:(lia))].
Qed.

Lemma consistent_ok : variables dim (dom_node D) = Ok nv -> face_gradient_info dim (dom_face D) = Ok di -> consistent dim D.
Proof.
  intros EV EF. assert (FE : zlen (dm_cellid D) = zlen (ge_facenodes g)) by exact len_cellid. assert (CE : zlen (dm_center D) = zlen nodeid) by exact LC. constructor; rewrite ?FE.
  - reflexivity.
  - split; [exact (node_ok dim size nodeid vertex namen K VR g cn h nodecell cellnid P nv di) | exact EV].
  - split; [exact cells_ok | exact cells_no_periodic].
  - split; [exact (face_ok dim size nodeid vertex namen K VR g cn h nodecell cellnid P nv di)|]. split; [exact EF|]. intros f Hf. split; [exact (normals_of_nodes f Hf) | exact (faces_two_sided f Hf)].
  - exact facelists_ok.
  - intros W HW. apply limiter_ok. rewrite FE. exact HW.
  - exact fv_ok.
  - exact each_once.
  - exact lists_of_cells.
  - intros c Hc. rewrite CE in Hc. exact (closed_cells c Hc).
  - exact timestep_ok.
  - exact bc_ok.
  - intros bcd dir Hdir. destruct (sys_ok bcd dir EV EF Hdir) as (A & B & C). split; [exact A|]. split; [exact B|]. intros pn pf H1 H2. apply C; [exact H1 | rewrite FE; exact H2].
  - exact sw_ok.
  - rewrite CE. exact order_ok.
Qed.
End Cons.
