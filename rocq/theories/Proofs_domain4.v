(** * Proofs_domain4: the tables of a constructed domain describe the mesh. *)
From Coq Require Import Reals Permutation Sorted Lra.
From Verif Require Import Py PyLemmas Model_part Model_label Model_conn Spec_conn Proofs_conn1 Proofs_conn2 Proofs_conn3 Model_geom Spec_geom Proofs_geom1 Proofs_geom2 Proofs_geom3
  Model_halo Spec_halo Proofs_halo1 Proofs_halo2 Proofs_halo3 Properties_halo Model_periodic Model_interp Spec_interp Model_fvm Spec_fvm Model_bc Model_linsys Model_domain Spec_domain
  Proofs_domain1 Proofs_domain2 Proofs_domain3.
Open Scope Z_scope.

Lemma vsum_perm (l l' : list pt) : Permutation l l' -> vsum l = vsum l'.
Proof.
  unfold vsum. induction 1 as [|x l l' _ IH|x y l|l l' l'' _ IH1 _ IH2]; cbn [fold_right]; [reflexivity | rewrite IH; reflexivity | | congruence].
  unfold vadd; cbn [px py pz]. f_equal; ring.
Qed.
Lemma barycentre_perm (l l' : list pt) : Permutation l l' -> barycentre l = barycentre l'.
Proof. intros P. unfold barycentre. rewrite (vsum_perm l l' P). unfold zlen. rewrite (Permutation_length P). reflexivity. Qed.
Lemma cell_centre_geo dim vertex r : dim = 2 \/ dim = 3 -> zlen r = dim + 1 -> cg_center (cellgeo_of dim vertex r) = cell_centre dim vertex r.
Proof.
  intros [-> | ->] HL; unfold cell_centre, cellgeo_of; cbn [Z.eqb Pos.eqb].
  - destruct (list3 r HL) as (a & b & c & ->). cbn [cellgeo2 cg_center]. change (nthZ 0 [a; b; c] 0) with a. change (nthZ 0 [a; b; c] 1) with b. change (nthZ 0 [a; b; c] 2) with c.
    unfold barycentre. cbn [map]. change (zlen [at_node vertex a; at_node vertex b; at_node vertex c]) with 3. unfold vsum, vscal; cbn [fold_right vadd px py pz]. f_equal; cbn [vzero px py pz]; field.
  - destruct (list4 r HL) as (a & b & c & d & ->). cbn [cellgeo3 cg_center]. change (nthZ 0 [a; b; c; d] 0) with a. change (nthZ 0 [a; b; c; d] 1) with b. change (nthZ 0 [a; b; c; d] 2) with c. change (nthZ 0 [a; b; c; d] 3) with d.
    unfold barycentre. cbn [map]. change (zlen [at_node vertex a; at_node vertex b; at_node vertex c; at_node vertex d]) with 4. unfold vsum, vscal; cbn [fold_right vadd px py pz]. f_equal; cbn [vzero px py pz]; field.
Qed.
Lemma cell_measure_geo dim vertex r : dim = 2 \/ dim = 3 -> zlen r = dim + 1 -> cg_volume (cellgeo_of dim vertex r) = cell_measure vertex r.
Proof.
  intros [-> | ->] HL; unfold cell_measure, cellgeo_of; cbn [Z.eqb Pos.eqb].
  - destruct (list3 r HL) as (a & b & c & ->). cbn [cellgeo2 cg_volume]. change (nthZ 0 [a; b; c] 0) with a. change (nthZ 0 [a; b; c] 1) with b. change (nthZ 0 [a; b; c] 2) with c. cbn [map]. unfold turn.
    set (A := at_node vertex a). set (B := at_node vertex b). set (C := at_node vertex c).
    replace ((px A - px B) * (py A - py C) - (px A - px C) * (py A - py B))%R with ((px B - px A) * (py C - py A) - (py B - py A) * (px C - px A))%R by ring. field.
  - destruct (list4 r HL) as (a & b & c & d & ->). cbn [cellgeo3 cg_volume]. change (nthZ 0 [a; b; c; d] 0) with a. change (nthZ 0 [a; b; c; d] 1) with b. change (nthZ 0 [a; b; c; d] 2) with c. change (nthZ 0 [a; b; c; d] 3) with d. cbn [map].
    set (A := at_node vertex a). set (B := at_node vertex b). set (C := at_node vertex c). set (E := at_node vertex d).
    replace (pdot (psub B A) (pcross (psub C A) (psub E A))) with (det4 A B C E) by (unfold det4, det, pdot, pcross, psub, vsub; cbn [px py pz]; ring). field.
Qed.
Lemma outward_is vertex r F w : outward vertex r F w <-> outward_of vertex r F w.
Proof. split; intros H; exact H. Qed.
Lemma outward_of_perm vertex r F G w : Permutation F G -> outward_of vertex r F w -> outward_of vertex r G w.
Proof. intros P H. apply outward_is, (outward_perm vertex r F G w P), outward_is, H. Qed.

Section Faithful.
Context (dim size : Z) (nodeid : list (list Z)) (vertex : list pt) (namen : list Z) (K : rankdata).
Hypothesis VR : valid_rank dim size nodeid vertex namen K.
Let WF := vr_mesh _ _ _ _ _ _ VR.
Let HN : zlen namen = zlen vertex := proj1 (vr_labels _ _ _ _ _ _ VR).
Let Hd := Hdim dim size nodeid vertex namen K VR.
Context (g : geometry) (cn : conn) (h : halostruct) (nodecell cellnid : list (list Z)).
Hypothesis P : parts dim size nodeid vertex namen K g cn h nodecell cellnid.
Context (nv : list nodevar) (di : list diamond).
Let D := assembled dim nodeid vertex namen K g cn h nodecell cellnid nv di.
Let Hcn := bu_cn _ _ _ _ _ _ _ _ _ _ _ P.
Let EL := bu_el _ _ _ _ _ _ _ _ _ _ _ P.
Let HF := bu_hf _ _ _ _ _ _ _ _ _ _ _ P.

Lemma Fs_sorted f : 0 <= f < zlen (ge_facenodes g) -> StronglySorted Z.lt (Fs cn f).
Proof. intros Hf. destruct (fcase dim size nodeid vertex namen K VR g cn h nodecell cellnid P f Hf) as ((_ & (S & _)) & _). exact S. Qed.
Lemma sorted_unique F F' : StronglySorted Z.lt F -> StronglySorted Z.lt F' -> Permutation F F' -> F = F'.
Proof.
  intros S S' PP. apply sorted_lt_unique; try assumption. intros x. split; apply Permutation_in; [exact PP | apply Permutation_sym; exact PP].
Qed.
Lemma face_is_Fs f F : StronglySorted Z.lt F -> face_is D f F -> 0 <= f < zlen (ge_facenodes g) /\ F = Fs cn f.
Proof.
  intros S (Hf & PP). change (0 <= f < zlen (ge_facenodes g)) in Hf. split; [exact Hf|]. apply sorted_unique; [exact S | apply Fs_sorted; exact Hf|].
  eapply Permutation_trans; [apply Permutation_sym; exact PP|]. apply (bu_pf _ _ _ _ _ _ _ _ _ _ _ P f Hf).
Qed.
Lemma Fs_face_is f : 0 <= f < zlen (ge_facenodes g) -> face_is D f (Fs cn f).
Proof. intros Hf. split; [exact Hf|]. apply (bu_pf _ _ _ _ _ _ _ _ _ _ _ P f Hf). Qed.
Lemma facet_number c F : has_facet dim nodeid c F -> exists f, 0 <= f < zlen (ge_facenodes g) /\ Fs cn f = F /\ forall f', 0 <= f' < zlen (ge_facenodes g) -> Fs cn f' = F -> f' = f.
Proof.
  intros H. destruct (c11 dim (zlen vertex) _ (WFo dim vertex nodeid WF)) as (c' & Ec' & ND & HFa & _). rewrite Hcn in Ec'. injection Ec' as <-.
  assert (HI : In F (cn_faces cn)) by (apply HFa; exists c; apply has_facet_o; [exact WF | exact H]). apply In_nthZ with (d := []) in HI. destruct HI as (f & Hf & EF). exists f. rewrite EL. split; [exact Hf|]. split; [exact EF|].
  intros f' Hf' EF'. unfold Fs in EF'. rewrite <- EF in EF'. unfold nthZ in EF'. apply (proj1 (NoDup_nth _ [])) in EF'; [lia | exact ND | unfold zlen in Hf'; lia | unfold zlen in Hf; lia].
Qed.
Lemma onhalo_iff k : onhalo K g k <-> exists c F hh, has_facet dim nodeid c F /\ In k F /\ cut_by K F hh.
Proof.
  split.
  - intros (f & hh & Hf & Hin & HC). exists (cleft cn f), (Fs cn f), hh. pose proof (bu_pf _ _ _ _ _ _ _ _ _ _ _ P f Hf) as PF. fold (Fs cn f) in PF. split; [apply (fcase dim size nodeid vertex namen K VR g cn h nodecell cellnid P f Hf)|].
    split; [apply (Permutation_in k PF Hin) | apply (cut_perm K _ _ _ PF HC)].
  - intros (c & F & hh & H & Hin & HC). destruct (facet_number c F H) as (f & Hf & EF & _). exists f, hh. pose proof (bu_pf _ _ _ _ _ _ _ _ _ _ _ P f Hf) as PF. fold (Fs cn f) in PF. rewrite EF in PF. apply Permutation_sym in PF.
    split; [exact Hf|]. split; [apply (Permutation_in k PF Hin) | apply (cut_perm K _ _ _ PF HC)].
Qed.
Lemma name10 k : 0 <= k < zlen vertex -> nthZ 0 (h_nodename h) k = 10 <-> onhalo K g k.
Proof.
  intros Hk. destruct (hf_node _ _ _ _ _ _ _ _ HF k Hk) as (A & B). split; [|exact A]. intros E. destruct (onhalo_dec vertex g (rk_ext K) (rk_node K) k) as [O|O]; [exact O|]. exfalso. rewrite (B O) in E.
  destruct (old_not_periodic dim size nodeid vertex namen K VR k Hk) as (_ & Y). pose proof Hd. lia.
Qed.
Lemma left_is f : 0 <= f < zlen (ge_facenodes g) -> nthZ 0 (nthZ [] (h_cellid h) f) 0 = cleft cn f.
Proof. intros Hf. destruct (fcase dim size nodeid vertex namen K VR g cn h nodecell cellnid P f Hf) as (_ & [E0 b E1 | E0 E1 | E0 E1]); rewrite E1; reflexivity. Qed.
Lemma face_geometry f F : face_is D f F -> outward_of vertex (cell nodeid (cleft cn f)) F (nthZ vzero (dm_normal D) f) /\
     nthZ 0%R (dm_mesure D) f = vlen (nthZ vzero (dm_normal D) f) /\ nthZ vzero (dm_fcenter D) f = barycentre (map (at_node vertex) F).
Proof.
  intros (Hf & PP). change (0 <= f < zlen (ge_facenodes g)) in Hf. change (dm_facenodes D) with (ge_facenodes g) in PP. pose proof (bu_pf _ _ _ _ _ _ _ _ _ _ _ P f Hf) as PF.
  assert (PQ : Permutation (nthZ [] (cn_faces cn) f) F) by (eapply Permutation_trans; [apply Permutation_sym; exact PF | exact PP]).
  assert (Hf' : 0 <= f < zlen (cn_faces cn)) by (rewrite <- EL; exact Hf).
  change (dm_normal D) with (map fg_normal (ge_faces g)). change (dm_mesure D) with (map fg_mesure (ge_faces g)). change (dm_fcenter D) with (map fg_center (ge_faces g)).
  rewrite (normal_at dim size nodeid vertex namen K g cn h nodecell cellnid P f Hf).
  rewrite (nthZ_map fg_mesure fg0), (nthZ_map fg_center fg0) by (rewrite (faces_len dim size nodeid vertex namen K g cn h nodecell cellnid P); exact Hf).
  pose proof (facegeo_at dim size nodeid vertex namen K g cn h nodecell cellnid P f Hf) as EG. rewrite EG.
  destruct (c19 dim vertex namen nodeid WF HN) as (g' & Eg' & Lg' & H19). rewrite (bu_g _ _ _ _ _ _ _ _ _ _ _ P) in Eg'. injection Eg' as <-. rewrite (bu_ecn _ _ _ _ _ _ _ _ _ _ _ P) in H19.
  destruct (H19 f Hf') as (_ & HM & _ & HC & _). cbv zeta in HM, HC. rewrite EG in HM, HC. split; [|split; [exact HM|]].
  - apply (outward_of_perm vertex _ _ _ _ PQ). apply outward_is. pose proof (left_has dim vertex nodeid WF cn Hcn f Hf') as HL.
    pose proof (signed_outward dim vertex namen nodeid WF cn Hcn (cleft cn f) f (vr_proper _ _ _ _ _ _ VR) (proj1 HL) Hf' HL (vr_nonflat _ _ _ _ _ _ VR)) as HO. unfold signed in HO. rewrite Z.eqb_refl in HO. exact HO.
  - rewrite HC. apply barycentre_perm, Permutation_map, PQ.
Qed.
Lemma faithful_ok : faithful dim size nodeid vertex namen K D.
Proof.
  destruct (hf_len _ _ _ _ _ _ _ _ HF) as (L1 & L2 & L3 & L4 & L5). constructor.
  - repeat split. exact (hf_loctoglob _ _ _ _ _ _ _ _ HF).
  - cbn [D assembled dm_cellnodes dm_center dm_volume dm_faceid dm_cellid dm_facenodes dm_centerh]. rewrite zlen_ocells, (len_center dim size nodeid vertex namen K g cn h nodecell cellnid P), zlen_map, (bu_ecs _ _ _ _ _ _ _ _ _ _ _ P), zlen_map.
    split; [reflexivity|]. split; [reflexivity|]. split; [reflexivity|]. split; [exact (len_faceid dim size nodeid vertex namen K VR g cn h nodecell cellnid P)|]. split; [exact L1 | exact (vr_centers _ _ _ _ _ _ VR)].
  - intros c Hc. split; [apply (ocell_perm dim vertex nodeid WF c Hc)|]. apply (volume_at dim size nodeid vertex namen K VR g cn h nodecell cellnid P c Hc).
  - intros f Hf. exists (cleft cn f), (Fs cn f). split; [|apply Fs_face_is; exact Hf]. apply (fcase dim size nodeid vertex namen K VR g cn h nodecell cellnid P f Hf).
  - intros c F H. destruct (facet_number c F H) as (f & Hf & EF & U). exists f. split; [rewrite <- EF; apply Fs_face_is; exact Hf|]. intros f' H'. destruct (face_is_Fs f' F) as (Hf' & E'); [exact (proj1 (proj2 H)) | exact H'|]. apply U; [exact Hf' | symmetry; exact E'].
  - intros c f F Hc (Hf & PP). change (0 <= f < zlen (ge_facenodes g)) in Hf. change (dm_faceid D) with (cn_faceid cn). rewrite (on_face dim size nodeid vertex namen K VR g cn h nodecell cellnid P c f Hc Hf).
    pose proof (bu_pf _ _ _ _ _ _ _ _ _ _ _ P f Hf) as PF. change (dm_facenodes D) with (ge_facenodes g) in PP. fold (Fs cn f) in PF.
    assert (PQ : Permutation F (Fs cn f)) by (eapply Permutation_trans; [apply Permutation_sym; exact PP | exact PF]). split.
    + intros (_ & _ & _ & HI) x Hx. apply HI. apply (Permutation_in x PQ Hx).
    + intros HI. split; [exact Hc|]. destruct (fcase dim size nodeid vertex namen K VR g cn h nodecell cellnid P f Hf) as ((_ & (S & Z1 & _)) & _). split; [exact S|]. split; [exact Z1|]. intros x Hx. apply HI. apply (Permutation_in x (Permutation_sym PQ) Hx).
  - intros f c F H HI. destruct (face_is_Fs f F (proj1 (proj2 H)) HI) as (Hf & ->). destruct (fcase dim size nodeid vertex namen K VR g cn h nodecell cellnid P f Hf) as (HL & [E0 b E1 E2 E3 E4 E5 | E0 E1 E2 E3 E4 | E0 E1 E2 E3]).
    + apply (Between _ _ _ _ _ _ _ (cleft cn f) b); [lia | intros k; split; [apply E4 | intros [-> | ->]; assumption] | exact E5 | exact E1 | exact E0].
    + apply (Outside _ _ _ _ _ _ _ (cleft cn f)); assumption.
    + apply (OnCut _ _ _ _ _ _ _ (cleft cn f)); assumption.
  - intros k Hk. apply (node_row_of dim size nodeid vertex namen K g cn h nodecell cellnid P k Hk).
  - intros c Hc. apply (cell_row_of dim size nodeid vertex namen K g cn h nodecell cellnid P c Hc).
  - intros k Hk. change (dm_nodename D) with (h_nodename h). rewrite <- onhalo_iff. split; [apply name10; exact Hk|]. intros N. apply (hf_node _ _ _ _ _ _ _ _ HF k Hk). intros O. apply N. apply name10; assumption.
  - intros k Hk hh. change (dm_nodename D) with (h_nodename h). rewrite (name10 k Hk). apply (halo_row_of dim size nodeid vertex namen K VR g cn h nodecell cellnid P k Hk).
  - intros c Hc. destruct (cellhalo_row_of dim size nodeid vertex namen K VR g cn h nodecell cellnid P c Hc) as (_ & ND & HI). split; [exact ND|]. intros hh. change (dm_cellhalo D) with (h_cellhalo h). rewrite HI. change (dm_nodename D) with (h_nodename h).
    assert (HR : forall k, In k (cell nodeid c) -> 0 <= k < zlen vertex) by (apply (wm_rows _ _ _ WF (cell nodeid c)), nthZ_In; exact Hc).
    split; intros (k & X1 & X2 & X3); exists k; (split; [exact X1|]; split; [apply name10; [apply HR; exact X1 | exact X2] | exact X3]).
  - intros c Hc. destruct (wm_rows _ _ _ WF (cell nodeid c)) as (HL & _); [apply nthZ_In; exact Hc|]. change (dm_center D) with (map cg_center (ge_cells g)). change (dm_volume D) with (map cg_volume (ge_cells g)).
    rewrite (center_at dim size nodeid vertex namen K g cn h nodecell cellnid P c Hc). rewrite (proj1 (volume_at dim size nodeid vertex namen K VR g cn h nodecell cellnid P c Hc)).
    split; [apply cell_centre_geo; [exact Hd | exact HL] | apply cell_measure_geo; [exact Hd | exact HL]].
  - intros f F HI. change (dm_cellid D) with (h_cellid h). rewrite (left_is f (proj1 HI)). apply face_geometry. exact HI.
  - intros f Hf Hn. change (0 <= f < zlen (ge_facenodes g)) in Hf. change (dm_name D) with (h_name h) in Hn. change (dm_facenodes D) with (ge_facenodes g). change (dm_cellid D) with (h_cellid h). change (dm_fghost D) with (map gc_pt (h_ghost h)). change (dm_center D) with (map cg_center (ge_cells g)).
    destruct (hf_ghost _ _ _ _ _ _ _ _ HF) as (LG & LN & LM & Hcol & Hmir & Hno).
    pose proof (Hmir f Hf) as M. rewrite has_ghost_iff in M by (try exact Hd; lia). specialize (M ltac:(lia)).
    assert (Hc : iscell nodeid (nthZ 0 (nthZ [] (h_cellid h) f) 0)) by (rewrite (left_is f Hf); apply (fcase dim size nodeid vertex namen K VR g cn h nodecell cellnid P f Hf)).
    rewrite (nthZ_map cg_center (cg0 [])) by (rewrite (bu_ecs _ _ _ _ _ _ _ _ _ _ _ P), zlen_map; exact Hc). rewrite (nthZ_map gc_pt gc0) by lia. exact M.
  - intros k Hk. cbv zeta. change (dm_nodeghost D) with (pad_rows (map (map entry_of) (h_nodeghost h))). rewrite (proj2 (proj2 (ghosts_padded dim size nodeid vertex namen K VR g cn h nodecell cellnid P) k Hk)).
    change (dm_name D) with (h_name h). change (dm_facenodes D) with (ge_facenodes g). change (dm_cellid D) with (h_cellid h). change (dm_fghost D) with (map gc_pt (h_ghost h)).
    destruct (hf_ghost _ _ _ _ _ _ _ _ HF) as (LG & LN & LM & Hcol & Hmir & Hno). destruct (Hno k Hk) as (HM & HE). split.
    + rewrite (nthZ_map (map entry_of) []) by lia. rewrite map_map. change (map (fun x => g_last (entry_of x)) (nthZ [] (h_nodeghost h) k)) with (map ng_face (nthZ [] (h_nodeghost h) k)). rewrite HM. apply filter_ext_in. intros f Hf. apply in_range in Hf.
      f_equal. apply eq_true_iff_eq. assert (0 <= nthZ 0 (h_name h) f) by (destruct (fcase dim size nodeid vertex namen K VR g cn h nodecell cellnid P f Hf) as (_ & [X | X | X]); rewrite ?X; lia).
      rewrite has_ghost_iff by (try exact Hd; lia). rewrite andb_true_iff. lia.
    + intros e He. destruct (ghost_entries dim size nodeid vertex namen K VR g cn h nodecell cellnid P k e Hk He) as (f & Hf & _ & _ & ->). cbn [g_last g_pt g_cell g_name]. rewrite (nthZ_map gc_pt gc0) by lia. rewrite (left_is f Hf). repeat split.
  - intros k Hk. split; [apply (haloghosts_padded dim size nodeid vertex namen K VR); exact Hk|]. change (dm_hginfo D) with (pad_pts (rk_info K)). unfold pad_pts. destruct (vr_info _ _ _ _ _ _ VR) as (LI & _).
    change (dm_haloghost D) with (pad_rows (rk_hg K)). unfold pad_rows. destruct (vr_haloghosts _ _ _ _ _ _ VR) as (LG & _).
    assert (X1 : exists pad, nthZ [] (pad_pts (rk_info K)) k = nthZ [] (rk_info K) k ++ pad) by (unfold pad_pts; rewrite (nthZ_map _ []) by lia; cbv zeta; destruct (_ =? 0); [rewrite <- app_assoc|]; eexists; reflexivity).
    assert (X2 : exists pad, nthZ [] (pad_rows (rk_hg K)) k = nthZ [] (rk_hg K) k ++ pad) by (unfold pad_rows; rewrite (nthZ_map _ []) by lia; cbv zeta; destruct (_ =? 0); [rewrite <- app_assoc|]; eexists; reflexivity).
    destruct X1 as (pad & X1). destruct X2 as (pad' & X2). exists pad, pad'. split; [exact X1 | exact X2].
  - exact (rows_once dim size nodeid vertex namen K g cn h nodecell cellnid P).
Qed.
End Faithful.
