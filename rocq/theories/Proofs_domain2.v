(** * Proofs_domain2: the cases of a face; the whole constructor. *)
From Coq Require Import Reals Permutation Sorted Lra.
From Verif Require Import Py PyLemmas Model_part Model_label Model_conn Spec_conn Proofs_conn1 Proofs_conn2 Proofs_conn3 Model_geom Spec_geom Proofs_geom1 Proofs_geom2 Proofs_geom3
  Model_halo Spec_halo Proofs_halo1 Proofs_halo2 Proofs_halo3 Properties_halo Model_periodic Spec_periodic Proofs_periodic Proofs_periodic2 Proofs_periodic3
  Model_interp Spec_interp Proofs_interp1 Proofs_interp2 Proofs_interp4 Properties_interp Model_fvm Spec_fvm Model_bc Model_linsys Model_domain Spec_domain Proofs_domain1.
Open Scope Z_scope.

Lemma max_like {A B} (f : list (list A)) (g : list (list B)) : map zlen f = map zlen g ->
  fold_left (fun m r => Z.max m (zlen r)) f 0 = fold_left (fun m r => Z.max m (zlen r)) g 0.
Proof.
  intros E. assert (H : forall X (l : list (list X)) m, fold_left (fun m r => Z.max m (zlen r)) l m = fold_left Z.max (map zlen l) m) by (clear; intros X l; induction l as [|r l IH]; intros m; [reflexivity | cbn [fold_left map]; apply IH]).
  rewrite !H, E. reflexivity.
Qed.
Lemma pad_pts_like (info : list (list pt)) (rows : list (list gentry)) i : zlen info = zlen rows -> (forall k, 0 <= k < zlen rows -> zlen (nthZ [] info k) = zlen (nthZ [] rows k)) -> 0 <= i < zlen rows ->
  zlen (nthZ [] (pad_pts info) i) = zlen (nthZ [] (pad_rows rows) i).
Proof.
  intros E H Hi. unfold pad_pts, pad_rows.
  assert (EM : map zlen info = map zlen rows). { apply (nthZ_ext 0); [rewrite !zlen_map; exact E|]. intros k Hk. rewrite zlen_map in Hk. rewrite (nthZ_map zlen []), (nthZ_map zlen []) by lia. apply H. lia. }
  rewrite (max_like info rows EM). set (m := fold_left _ rows 0). rewrite (nthZ_map _ []), (nthZ_map _ []) by lia. cbv zeta. rewrite !zlen_app, !zlen_repeat, (H i Hi).
  destruct (_ =? 0); rewrite ?zlen_app, !zlen_repeat, (H i Hi); reflexivity.
Qed.

Section Dom.
Context (f32 : R -> R) (dim size : Z) (nodeid : list (list Z)) (vertex : list pt) (namen : list Z) (K : rankdata).
Hypothesis VR : valid_rank dim size nodeid vertex namen K.
Let WF := vr_mesh _ _ _ _ _ _ VR.
Let HN : zlen namen = zlen vertex := proj1 (vr_labels _ _ _ _ _ _ VR).
Let NFL := vr_nonflat _ _ _ _ _ _ VR.
Let Hd := Hdim dim size nodeid vertex namen K VR.
Context (g : geometry).
Hypothesis Hg : build_geometry dim nodeid vertex namen = Ok g.
Context (cn : conn).
Hypothesis Hcn : build_faces dim (ocells dim vertex nodeid) = Ok cn.
Hypothesis Ecn : ge_conn g = cn.
Hypothesis Ecs : ge_cells g = map (cellgeo_of dim vertex) nodeid.
Hypothesis Ef : ge_faces g = map (facegeo_of dim vertex namen nodeid cn) (range (zlen (ge_facenodes g))).
Hypothesis EL : zlen (ge_facenodes g) = zlen (cn_faces cn).
Hypothesis PF : forall f, 0 <= f < zlen (ge_facenodes g) -> Permutation (nthZ [] (ge_facenodes g) f) (nthZ [] (cn_faces cn) f).
Context (h : halostruct).
Hypothesis HF : hfacts dim size nodeid vertex namen K g h.

Let n := zlen (ge_facenodes g).
Definition Fs (f : Z) : list Z := nthZ [] (cn_faces cn) f.
Inductive face_case (f : Z) : Prop :=
| Inner (E0 : nthZ 0 (h_name h) f = 0) (b : Z) (E1 : nthZ [] (h_cellid h) f = [cleft cn f; b]) (E2 : cleft cn f < b) (E3 : has_facet dim nodeid b (Fs f))
    (E4 : forall k, has_facet dim nodeid k (Fs f) -> k = cleft cn f \/ k = b) (E5 : forall c, ~ cut_by K (Fs f) c)
| Border (E0 : 1 <= nthZ 0 (h_name h) f <= 2 * dim) (E1 : nthZ [] (h_cellid h) f = [cleft cn f; -1]) (E2 : only_cell dim nodeid (cleft cn f) (Fs f)) (E3 : forall c, ~ cut_by K (Fs f) c)
    (E4 : nthZ 0 (h_name h) f = face_label (priority dim) (map (nthZ 0 namen) (Fs f)))
| Cut (E0 : nthZ 0 (h_name h) f = 10) (E1 : nthZ [] (h_cellid h) f = [cleft cn f; -10]) (E2 : only_cell dim nodeid (cleft cn f) (Fs f)) (E3 : cut_by K (Fs f) (nthZ 0 (h_halofid h) f)).

Lemma cutf_iff f c : 0 <= f < zlen (ge_facenodes g) -> cutf K g f c <-> cut_by K (Fs f) c.
Proof. intros Hf. unfold cutf, Fs. split; apply cut_perm; [apply PF; exact Hf | apply Permutation_sym, PF; exact Hf]. Qed.
Lemma face_cases f : 0 <= f < zlen (ge_facenodes g) -> has_facet dim nodeid (cleft cn f) (Fs f) /\ face_case f.
Proof.
  intros Hf. assert (Hf' : 0 <= f < zlen (cn_faces cn)) by lia. pose proof (left_has dim vertex nodeid WF cn Hcn f Hf') as HL. fold (Fs f) in HL. split; [exact HL|].
  destruct (cellid_row dim vertex nodeid WF cn Hcn f Hf') as (ER & HC & _).
  destruct (c12 dim (zlen vertex) _ (WFo dim vertex nodeid WF)) as (c' & Ec' & _ & H12). rewrite Hcn in Ec'. injection Ec' as <-. destruct (H12 f Hf') as (a & b & Eab & Ha & _ & Hb1 & Hb2 & Hb3). rewrite ER in Eab. injection Eab as <- <-. fold (Fs f) in *.
  specialize (Hb3 (conforming_o dim vertex nodeid WF (proper_conforming dim size nodeid vertex namen K VR))).
  destruct (hf_face _ _ _ _ _ _ _ _ HF f Hf) as (A & B). rewrite Ecn in A, B. destruct (cutf_dec K g f) as [T|T].
  - destruct (A T) as (A1 & A2 & A3). apply Cut; [exact A2 | exact A1 | | apply cutf_iff; assumption]. destruct T as (c & Hc). apply cutf_iff in Hc; [|exact Hf].
    destruct (opposite dim size nodeid vertex namen K VR _ _ HL) as (x & _ & Ix & Nx). exact (proj1 (vr_cut _ _ _ _ _ _ VR _ _ _ _ HL Hc Ix Nx)).
  - destruct (B T) as (B1 & B2). assert (NT : forall c, ~ cut_by K (Fs f) c) by (intros c Hc; apply (T c), cutf_iff; assumption). rewrite ER in B1.
    assert (EN : nthZ 0 (h_name h) f = if cright cn f =? -1 then label namen (Fs f) else 0).
    { rewrite B2. rewrite Ef. rewrite (nthZ_map _ 0) by (rewrite zlen_range; lia). rewrite nthZ_range by lia. reflexivity. }
    destruct (Z.eq_dec (cright cn f) (-1)) as [E1|N1].
    + assert (OC : only_cell dim nodeid (cleft cn f) (Fs f)). { split; [exact HL|]. intros k Hk. apply (proj1 Hb1 E1 k), has_facet_o; [exact WF | exact Hk]. }
      assert (EB : nthZ 0 (h_name h) f = face_label (priority dim) (map (nthZ 0 namen) (Fs f))).
      { rewrite EN. rewrite E1. cbn [Z.eqb Pos.eqb]. unfold label. destruct (face_row dim vertex nodeid WF cn Hcn f Hf') as (HLF & _). fold (Fs f) in HLF. pose proof Hd as Hd'. clear - HLF Hd'. destruct Hd' as [E | E]; rewrite E in *.
        - destruct (list2 _ HLF) as (x & y & ->). cbn [map]. apply name2_spec.
        - destruct (list3 _ HLF) as (x & y & z & ->). cbn [map]. apply name3_spec. }
      apply Border; [rewrite EB; apply (vr_boundary _ _ _ _ _ _ VR _ _ OC NT) | rewrite B1, E1; reflexivity | exact OC | exact NT | exact EB].
    + destruct (Hb2 N1) as (Hlt & Hb). apply has_facet_o in Hb; [|exact WF]. apply Inner with (b := cright cn f); [rewrite EN; replace (cright cn f =? -1) with false by lia; reflexivity | exact B1 | exact Hlt | exact Hb | | exact NT].
      intros k Hk. apply (Hb3 N1 k), has_facet_o; [exact WF | exact Hk].
Qed.

(** ** node and cell tables *)
Context (nodecell cellnid : list (list Z)).
Record nfacts : Prop := {
  nc_len : zlen nodecell = zlen vertex /\ zlen cellnid = zlen nodeid;
  nc_node : forall k, 0 <= k < zlen vertex -> exists L pad, nthZ [] nodecell k = L ++ pad ++ [zlen L] /\ L <> [] /\ NoDup L /\ forall c, In c L <-> iscell nodeid c /\ In k (cell nodeid c);
  nc_width : forall i j, 0 <= i < zlen vertex -> 0 <= j < zlen vertex -> zlen (nthZ [] nodecell i) = zlen (nthZ [] nodecell j);
  nc_cell : forall c, iscell nodeid c -> exists L pad, nthZ [] cellnid c = L ++ pad ++ [zlen L] /\ NoDup L /\ forall x, In x L <-> iscell nodeid x /\ x <> c /\ exists k, In k (cell nodeid c) /\ In k (cell nodeid x) }.
End Dom.

Section Build.
Context (f32 : R -> R) (dim size : Z) (nodeid : list (list Z)) (vertex : list pt) (namen : list Z) (K : rankdata).
Hypothesis VR : valid_rank dim size nodeid vertex namen K.
Let WF := vr_mesh _ _ _ _ _ _ VR.
Let HN : zlen namen = zlen vertex := proj1 (vr_labels _ _ _ _ _ _ VR).
Let NFL := vr_nonflat _ _ _ _ _ _ VR.
Let Hd := Hdim dim size nodeid vertex namen K VR.
Lemma vertex_pos : 0 < zlen vertex.
Proof.
  destruct (wm_rows _ _ _ WF (cell nodeid 0)) as (HL & _ & HR); [apply nthZ_In; pose proof (vr_cells _ _ _ _ _ _ VR); lia|].
  destruct (cell nodeid 0) as [|k l]; [unfold zlen in HL; cbn in HL; destruct Hd; lia | specialize (HR k (or_introl eq_refl)); lia].
Qed.
Lemma nodes_built : exists nodecell cellnid, create_node_cellid (ocells dim vertex nodeid) (zlen (ocells dim vertex nodeid)) (zlen vertex) dim = Ok (nodecell, cellnid) /\ nfacts nodeid vertex nodecell cellnid.
Proof.
  pose proof (vr_cells _ _ _ _ _ _ VR) as HC.
  assert (IO : forall c k, iscell nodeid c -> In k (cell (ocells dim vertex nodeid) c) <-> In k (cell nodeid c)).
  { intros c k Hc. pose proof (ocell_perm dim vertex nodeid WF c Hc) as P. split; apply Permutation_in; [exact P | apply Permutation_sym; exact P]. }
  destruct (c10 dim (zlen vertex) _ (WFo dim vertex nodeid WF) vertex_pos) as (nodecell & cellnid & m & m' & E & L1 & L2 & HK & HCC); [rewrite zlen_ocells; exact HC|]. exists nodecell, cellnid. split; [exact E|].
  rewrite zlen_ocells in L2. constructor.
  - split; assumption.
  - intros k Hk. destruct (HK k Hk) as (L & EL & _ & SL & HI). eexists L, _. split; [exact EL|].
    assert (HI' : forall c, In c L <-> iscell nodeid c /\ In k (cell nodeid c)). { intros c. rewrite HI, iscell_o. split; intros (X1 & X2); (split; [exact X1|]); apply (IO c k X1); exact X2. } split; [|split; [apply sorted_lt_NoDup; exact SL | exact HI']].
    destruct (vr_used _ _ _ _ _ _ VR k Hk) as (c & Hc). apply HI' in Hc. destruct L; [destruct Hc | discriminate].
  - intros i j Hi Hj. destruct (HK i Hi) as (L & EL & LL & _), (HK j Hj) as (L' & EL' & LL' & _). rewrite EL, EL', !zlen_app. unfold zlen in *. rewrite !repeat_length. cbn [length]. lia.
  - intros c Hc. destruct (HCC c) as (L & EL & _ & SL & HI); [apply iscell_o; exact Hc|]. eexists L, _. split; [exact EL|]. split; [apply sorted_lt_NoDup; exact SL|]. intros x. rewrite HI, iscell_o.
    split; intros (X1 & X2 & k & X3 & X4); (split; [exact X1|]; split; [exact X2|]; exists k); split; apply IO; assumption.
Qed.


(** ** the whole constructor *)
Definition assembled (g : geometry) (cn : conn) (h : halostruct) (nodecell cellnid : list (list Z)) (nv : list nodevar) (di : list diamond) : domain :=
      {| dm_dim := dim;
         dm_vertex := vertex; dm_old := namen; dm_nodename := h_nodename h; dm_nodecell := nodecell; dm_nodehalo := h_nodehalo h; dm_nodeperiodic := pad_unique (zeros_like [] (zlen vertex));
         dm_nodeghost := pad_rows (map (map entry_of) (h_nodeghost h)); dm_haloghost := pad_rows (rk_hg K); dm_hginfo := pad_pts (rk_info K); dm_nodevar := nv; dm_nodeglob := h_loctoglob h;
         dm_cellnodes := ocells dim vertex nodeid; dm_center := map cg_center (ge_cells g); dm_volume := map cg_volume (ge_cells g); dm_cellnid := cellnid; dm_faceid := cn_faceid cn;
         dm_cellfid := cn_cellfid cn; dm_nf := ge_nf g; dm_cellhalo := h_cellhalo h; dm_loctoglob := rk_cell K;
         dm_periodicfid := map (fun c => if c =? 0 then -1 else c) (zeros_like 0 (zlen nodeid)); dm_periodicnid := pad_unique (zeros_like [] (zlen nodeid)); dm_shift := zeros_like p0 (zlen nodeid);
         dm_facenodes := ge_facenodes g; dm_cellid := h_cellid h; dm_name := h_name h; dm_normal := map fg_normal (ge_faces g); dm_mesure := map fg_mesure (ge_faces g);
         dm_fcenter := map fg_center (ge_faces g); dm_opp := cn_opp cn; dm_halofid := h_halofid h; dm_fghost := map gc_pt (h_ghost h); dm_diamond := di;
         dm_centerh := rk_center K; dm_hext := rk_ext K; dm_nhg := rk_nhg K |}.
Record parts (g : geometry) (cn : conn) (h : halostruct) (nodecell cellnid : list (list Z)) : Prop := {
  bu_g : build_geometry dim nodeid vertex namen = Ok g;
  bu_cn : build_faces dim (ocells dim vertex nodeid) = Ok cn; bu_ecn : ge_conn g = cn; bu_ecs : ge_cells g = map (cellgeo_of dim vertex) nodeid;
  bu_ef : ge_faces g = map (facegeo_of dim vertex namen nodeid cn) (range (zlen (ge_facenodes g))); bu_el : zlen (ge_facenodes g) = zlen (cn_faces cn);
  bu_pf : forall f, 0 <= f < zlen (ge_facenodes g) -> Permutation (nthZ [] (ge_facenodes g) f) (nthZ [] (cn_faces cn) f);
  bu_h : create_halo_structure dim size g vertex namen (rk_ext K) (rk_node K) = Ok h; bu_hf : hfacts dim size nodeid vertex namen K g h;
  bu_nodes : create_node_cellid (ocells dim vertex nodeid) (zlen (ocells dim vertex nodeid)) (zlen vertex) dim = Ok (nodecell, cellnid); bu_n : nfacts nodeid vertex nodecell cellnid }.
Lemma parts_exist : exists g cn h nodecell cellnid, parts g cn h nodecell cellnid.
Proof.
  destruct (build_geometry_ok dim vertex namen nodeid WF HN) as (_ & g & Hg & _). destruct (geometry_facts dim vertex namen nodeid WF HN g Hg) as (cn & Hcn & Ecn & Ecs & Ef & EL & PF).
  destruct (halo_built dim size nodeid vertex namen K VR g Hg) as (h & Eh & HF). destruct nodes_built as (nodecell & cellnid & En & NF). exists g, cn, h, nodecell, cellnid. constructor; assumption.
Qed.

Context (g : geometry) (cn : conn) (h : halostruct) (nodecell cellnid : list (list Z)).
Hypothesis P : parts g cn h nodecell cellnid.
Let Hcn := bu_cn _ _ _ _ _ P.
Let EL := bu_el _ _ _ _ _ P.
Let HF := bu_hf _ _ _ _ _ P.
Lemma fcase f : 0 <= f < zlen (ge_facenodes g) -> has_facet dim nodeid (cleft cn f) (Fs cn f) /\ face_case dim nodeid namen K cn h f.
Proof. intros Hf. destruct P. apply (face_cases dim size nodeid vertex namen K VR g cn); assumption. Qed.
Lemma len_center : zlen (map cg_center (ge_cells g)) = zlen nodeid.
Proof. rewrite (bu_ecs _ _ _ _ _ P), !zlen_map. reflexivity. Qed.
Lemma len_name : zlen (h_name h) = zlen (ge_facenodes g). Proof. exact (proj1 (proj2 (proj2 (hf_ghost _ _ _ _ _ _ _ _ HF)))). Qed.
Lemma center_at c : iscell nodeid c -> nthZ vzero (map cg_center (ge_cells g)) c = centerc dim vertex nodeid c.
Proof. intros Hc. rewrite (bu_ecs _ _ _ _ _ P), map_map. rewrite (nthZ_map (fun r => cg_center (cellgeo_of dim vertex r)) []) by exact Hc. reflexivity. Qed.
Lemma faces_len : zlen (ge_faces g) = zlen (ge_facenodes g).
Proof. rewrite (bu_ef _ _ _ _ _ P), zlen_map, zlen_range by apply zlen_nonneg. reflexivity. Qed.
Lemma facegeo_at f : 0 <= f < zlen (ge_facenodes g) -> nthZ fg0 (ge_faces g) f = facegeo_of dim vertex namen nodeid cn f.
Proof. intros Hf. rewrite (bu_ef _ _ _ _ _ P). rewrite (nthZ_map _ 0) by (rewrite zlen_range; lia). rewrite nthZ_range by lia. reflexivity. Qed.
Lemma normal_at f : 0 <= f < zlen (ge_facenodes g) -> nthZ vzero (map fg_normal (ge_faces g)) f = fg_normal (facegeo_of dim vertex namen nodeid cn f).
Proof. intros Hf. rewrite (nthZ_map fg_normal fg0) by (rewrite faces_len; exact Hf). rewrite facegeo_at by exact Hf. reflexivity. Qed.
Lemma name_not_periodic f : 0 <= f < zlen (ge_facenodes g) -> nthZ 0 (h_name h) f <= 10 /\ is_periodic dim (nthZ 0 (h_name h) f) = false.
Proof.
  intros Hf. assert (H : 0 <= nthZ 0 (h_name h) f <= 10) by (destruct (fcase f Hf) as (_ & [E0 | E0 | E0]); rewrite ?E0; try lia; pose proof Hd; lia). split; [lia|]. unfold is_periodic, is_x, is_y, is_z. set (l := nthZ 0 (h_name h) f) in *. destruct (dim =? 3); lia.
Qed.
Lemma node_label k : 0 <= k < zlen vertex -> nthZ 0 (h_nodename h) k <= 10.
Proof.
  intros Hk. pose proof Hd. assert (0 <= nthZ 0 namen k <= 2 * dim) by (apply (proj2 (vr_labels _ _ _ _ _ _ VR)), nthZ_In; lia).
  destruct (hf_node _ _ _ _ _ _ _ _ HF k Hk) as (A & B).
  assert (D : onhalo K g k \/ ~ onhalo K g k) by (unfold onhalo, cutf, cut_by; apply (onhalo_dec vertex g (rk_ext K) (rk_node K) k)). destruct D as [D|D]; [rewrite (A D) | rewrite (B D)]; lia.
Qed.
Lemma old_not_periodic k : 0 <= k < zlen vertex -> is_periodic dim (nthZ 0 namen k) = false /\ 0 <= nthZ 0 namen k <= 2 * dim.
Proof.
  intros Hk. pose proof Hd. assert (0 <= nthZ 0 namen k <= 2 * dim) by (apply (proj2 (vr_labels _ _ _ _ _ _ VR)), nthZ_In; lia). split; [|lia]. unfold is_periodic, is_x, is_y, is_z. destruct (dim =? 3); lia.
Qed.

(** ghosts *)
Lemma ghost_entries k e : 0 <= k < zlen vertex -> In e (nthZ [] (map (map entry_of) (h_nodeghost h)) k) ->
  exists f, 0 <= f < zlen (ge_facenodes g) /\ In k (nthZ [] (ge_facenodes g) f) /\ 1 <= nthZ 0 (h_name h) f <= 2 * dim /\ e = {| g_pt := gc_pt (nthZ gc0 (h_ghost h) f); g_cell := cleft cn f; g_name := nthZ 0 (h_name h) f; g_last := f |}.
Proof.
  intros Hk. destruct (hf_ghost _ _ _ _ _ _ _ _ HF) as (LG & LN & LM & Hcol & Hmir & Hno). rewrite (nthZ_map (map entry_of) []) by lia. intros He. apply in_map_iff in He as (x & <- & Hx).
  destruct (Hno k Hk) as (HM & HE). specialize (HE x Hx). cbv zeta in HE. destruct HE as (E1 & E2 & E3 & _).
  assert (HI : In (ng_face x) (map ng_face (nthZ [] (h_nodeghost h) k))) by (apply in_map; exact Hx). rewrite HM in HI. apply filter_In in HI as (HI & HG). apply in_range in HI. apply andb_true_iff in HG as (HG & HMk). apply mem_In in HMk.
  exists (ng_face x). split; [exact HI|]. split; [exact HMk|]. split.
  - assert (0 <= nthZ 0 (h_name h) (ng_face x)) by (destruct (fcase _ HI) as (_ & [X | X | X]); rewrite ?X; lia). rewrite has_ghost_iff in HG by (try exact Hd; lia). lia.
  - unfold entry_of. rewrite E1, E2, E3, (Hcol _ HI), (bu_ecn _ _ _ _ _ P). reflexivity.
Qed.
Lemma ghost_entry_of k f : 0 <= k < zlen vertex -> 0 <= f < zlen (ge_facenodes g) -> In k (nthZ [] (ge_facenodes g) f) -> 1 <= nthZ 0 (h_name h) f <= 2 * dim ->
  exists e, In e (nthZ [] (map (map entry_of) (h_nodeghost h)) k).
Proof.
  intros Hk Hf Hkf Hn. destruct (hf_ghost _ _ _ _ _ _ _ _ HF) as (LG & LN & LM & Hcol & Hmir & Hno). rewrite (nthZ_map (map entry_of) []) by lia. destruct (Hno k Hk) as (HM & _).
  assert (HI : In f (map ng_face (nthZ [] (h_nodeghost h) k))). { rewrite HM. apply filter_In. split; [apply in_range; exact Hf|]. apply andb_true_iff. split; [|apply mem_In; exact Hkf]. rewrite has_ghost_iff by (try exact Hd; lia). lia. }
  apply in_map_iff in HI as (x & _ & Hx). exists (entry_of x). apply in_map. exact Hx.
Qed.
Lemma ghosts_padded : zlen (pad_rows (map (map entry_of) (h_nodeghost h))) = zlen vertex /\
  forall k, 0 <= k < zlen vertex -> ghost_row_ok (zlen (ge_facenodes g)) (nthZ [] (pad_rows (map (map entry_of) (h_nodeghost h))) k) /\
    real_ghosts (nthZ [] (pad_rows (map (map entry_of) (h_nodeghost h))) k) = nthZ [] (map (map entry_of) (h_nodeghost h)) k.
Proof.
  destruct (hf_ghost _ _ _ _ _ _ _ _ HF) as (_ & LN & _).
  destruct (C24_ghost_padding (zlen (ge_facenodes g)) (map (map entry_of) (h_nodeghost h))) as (A & B).
  - intros r e Hr He. apply In_nthZ with (d := []) in Hr as (k & Hk & <-). rewrite zlen_map, LN in Hk. destruct (ghost_entries k e Hk He) as (f & Hf & _ & _ & ->). cbn [g_cell g_last]. destruct (fcase f Hf) as ((Hc & _) & _). unfold iscell in Hc. split; lia.
  - rewrite zlen_map, LN in A, B. split; [exact A|]. intros k Hk. exact (B k Hk).
Qed.
Lemma haloghosts_padded : zlen (pad_rows (rk_hg K)) = zlen vertex /\
  forall k, 0 <= k < zlen vertex -> ghost_row_ok (rk_nhg K) (nthZ [] (pad_rows (rk_hg K)) k) /\ real_ghosts (nthZ [] (pad_rows (rk_hg K)) k) = nthZ [] (rk_hg K) k.
Proof.
  destruct (vr_haloghosts _ _ _ _ _ _ VR) as (L & _ & H). destruct (C24_ghost_padding (rk_nhg K) (rk_hg K)) as (A & B).
  - intros r e Hr He. apply In_nthZ with (d := []) in Hr as (k & Hk & <-). rewrite L in Hk. destruct (H k e Hk He) as (X1 & X2 & _). split; lia.
  - rewrite L in A, B. split; [exact A | exact B].
Qed.
Lemma periodic_row (m i : Z) : 0 <= i < m -> row_ok (zlen nodeid) (nthZ [] (pad_unique (zeros_like [] m)) i) /\ row_count (nthZ [] (pad_unique (zeros_like [] m)) i) = 0.
Proof.
  intros Hi. destruct (pad_unique_row (zeros_like [] m) i) as (k & E); [rewrite zlen_zeros_like; lia|]. rewrite nthZ_zeros_like in E by exact Hi. change (np_unique []) with (@nil Z) in E.
  destruct (row_ok_snoc (zlen nodeid) (nthZ [] (pad_unique (zeros_like [] m)) i) [] (repeat (-1) k)) as (A & B & _); [exact E | intros c [] | split; [exact A | exact B]].
Qed.
Lemma node_row_of k : 0 <= k < zlen vertex -> row_ok (zlen nodeid) (nthZ [] nodecell k) /\ 0 < row_count (nthZ [] nodecell k) /\ forall c, In c (counted (nthZ [] nodecell k)) <-> iscell nodeid c /\ In k (cell nodeid c).
Proof.
  intros Hk. destruct (nc_node _ _ _ _ (bu_n _ _ _ _ _ P) k Hk) as (L & pad & E & NE & NDL & HI). destruct (row_ok_snoc (zlen nodeid) _ L pad E) as (A & B & C); [intros c Hc; apply HI in Hc as (Hc & _); exact Hc|].
  split; [exact A|]. rewrite B, C. split; [destruct L; [contradiction | rewrite zlen_cons; pose proof (zlen_nonneg L); lia] | exact HI].
Qed.
Lemma cell_row_of c : iscell nodeid c -> row_ok (zlen nodeid) (nthZ [] cellnid c) /\ forall x, In x (counted (nthZ [] cellnid c)) <-> iscell nodeid x /\ x <> c /\ exists k, In k (cell nodeid c) /\ In k (cell nodeid x).
Proof.
  intros Hc. destruct (nc_cell _ _ _ _ (bu_n _ _ _ _ _ P) c Hc) as (L & pad & E & NDL & HI). destruct (row_ok_snoc (zlen nodeid) _ L pad E) as (A & B & C); [intros x Hx; apply HI in Hx as (Hx & _); exact Hx|].
  split; [exact A|]. rewrite C. exact HI.
Qed.
Lemma halo_row_of k : 0 <= k < zlen vertex -> row_ok (zlen (rk_center K)) (nthZ [] (h_nodehalo h) k) /\
  (forall c, In c (counted (nthZ [] (h_nodehalo h) k)) <-> onhalo K g k /\ ishalo (rk_ext K) c /\ In (nthZ 0 (rk_node K) k) (halo_nodes (rk_ext K) c)) /\ (~ onhalo K g k -> row_count (nthZ [] (h_nodehalo h) k) = 0).
Proof.
  intros Hk. rewrite (vr_centers _ _ _ _ _ _ VR). destruct (hf_nodehalo _ _ _ _ _ _ _ _ HF k Hk) as (W & pad & E & NW & HI). destruct (row_ok_snoc (zlen (rk_ext K)) _ W pad E) as (A & B & C); [intros c Hc; apply HI in Hc; exact (proj1 (proj2 Hc))|].
  split; [exact A|]. split; [rewrite C; exact HI|]. intros NH. rewrite B. destruct W as [|c W]; [reflexivity|]. exfalso. apply NH. apply (HI c). left; reflexivity.
Qed.
Lemma rows_once : (forall k, 0 <= k < zlen vertex -> NoDup (counted (nthZ [] nodecell k)) /\ NoDup (counted (nthZ [] (h_nodehalo h) k))) /\ forall c, iscell nodeid c -> NoDup (counted (nthZ [] cellnid c)).
Proof.
  split; [intros k Hk; split|intros c Hc].
  - destruct (nc_node _ _ _ _ (bu_n _ _ _ _ _ P) k Hk) as (L & pad & E & NE & NDL & HI). destruct (row_ok_snoc (zlen nodeid) _ L pad E) as (_ & _ & C); [intros c Hc; apply HI in Hc as (Hc & _); exact Hc|]. rewrite C. exact NDL.
  - destruct (hf_nodehalo _ _ _ _ _ _ _ _ HF k Hk) as (W & pad & E & NW & HI). destruct (row_ok_snoc (zlen (rk_ext K)) _ W pad E) as (_ & _ & C); [intros c Hc; apply HI in Hc; exact (proj1 (proj2 Hc))|]. rewrite C. exact NW.
  - destruct (nc_cell _ _ _ _ (bu_n _ _ _ _ _ P) c Hc) as (L & pad & E & NDL & HI). destruct (row_ok_snoc (zlen nodeid) _ L pad E) as (_ & _ & C); [intros x Hx; apply HI in Hx as (Hx & _); exact Hx|]. rewrite C. exact NDL.
Qed.
Lemma cellhalo_row_of c : iscell nodeid c -> row_ok (zlen (rk_center K)) (nthZ [] (h_cellhalo h) c) /\ NoDup (counted (nthZ [] (h_cellhalo h) c)) /\
  forall x, In x (counted (nthZ [] (h_cellhalo h) c)) <-> exists k, In k (cell nodeid c) /\ onhalo K g k /\ ishalo (rk_ext K) x /\ In (nthZ 0 (rk_node K) k) (halo_nodes (rk_ext K) x).
Proof.
  intros Hc. rewrite (vr_centers _ _ _ _ _ _ VR). destruct (hf_cellhalo _ _ _ _ _ _ _ _ HF c Hc) as (W & pad & E & NW & HI). destruct (row_ok_snoc (zlen (rk_ext K)) _ W pad E) as (A & B & C).
  - intros x Hx. apply HI in Hx as (k & _ & _ & Hx & _). exact Hx.
  - split; [exact A|]. rewrite C. split; [exact NW | exact HI].
Qed.

Context (nv : list nodevar) (di : list diamond).
Let D := assembled g cn h nodecell cellnid nv di.
Lemma node_ok : wf_nodedata dim (dom_node D) (zlen (ge_facenodes g)) (rk_nhg K).
Proof.
  destruct (hf_len _ _ _ _ _ _ _ _ HF) as (L1 & L2 & L3 & L4 & L5). destruct (nc_len _ _ _ _ (bu_n _ _ _ _ _ P)) as (N1 & N2). destruct ghosts_padded as (G1 & G2), haloghosts_padded as (G3 & G4). constructor.
  - exact Hd.
  - cbn [dom_node D assembled nd_old nd_vertex nd_name nd_cellid nd_ghost nd_periodic nd_haloghost nd_haloid nd_shift nd_centerc dm_vertex dm_old dm_nodename dm_nodecell dm_nodehalo dm_nodeperiodic dm_nodeghost dm_haloghost dm_center dm_shift].
    rewrite zlen_pad_unique, !zlen_zeros_like by apply zlen_nonneg. rewrite len_center. repeat split; assumption.
  - intros i Hi. change (row_ok (zlen (map cg_center (ge_cells g))) (nthZ [] nodecell i)). rewrite len_center. apply node_row_of. exact Hi.
  - intros i Hi. apply G2. exact Hi.
  - intros i Hi _. change (row_ok (zlen (map cg_center (ge_cells g))) (nthZ [] (pad_unique (zeros_like [] (zlen vertex))) i)). rewrite len_center. apply periodic_row. exact Hi.
  - intros i Hi _. split; [apply halo_row_of; exact Hi | apply G4; exact Hi].
Qed.
Lemma face_nodes f : 0 <= f < zlen (ge_facenodes g) -> zlen (nthZ [] (ge_facenodes g) f) = dim /\ NoDup (nthZ [] (ge_facenodes g) f) /\ forall k, In k (nthZ [] (ge_facenodes g) f) -> 0 <= k < zlen vertex.
Proof. intros Hf. apply (Fo_facts dim vertex namen nodeid WF HN g (bu_g _ _ _ _ _ P) f Hf). Qed.
Lemma face_tables f : 0 <= f < zlen (ge_facenodes g) -> let l := nthZ 0 (h_name h) f in let row := nthZ [] (h_cellid h) f in
  zlen row = 2 /\ nthZ 0 row 0 = cleft cn f /\ iscell nodeid (cleft cn f) /\ (l = 0 -> iscell nodeid (nthZ 0 row 1) /\ cleft cn f < nthZ 0 row 1) /\ (l = 10 -> 0 <= nthZ 0 (h_halofid h) f < zlen (rk_center K)) /\
  (l = 0 \/ 1 <= l <= 2 * dim \/ l = 10).
Proof.
  intros Hf l row. destruct (fcase f Hf) as ((HL & _) & [E0 b E1 E2 E3 E4 E5 | E0 E1 E2 E3 E4 | E0 E1 E2 E3]); unfold l, row; rewrite E1; rewrite ?E0; (split; [reflexivity|]; split; [reflexivity|]; split; [exact HL|]).
  - split; [intros _; split; [exact (proj1 E3) | exact E2]|]. split; [intros; discriminate | auto].
  - split; [lia|]. split; [pose proof Hd; lia | lia].
  - split; [lia|]. split; [intros _; rewrite (vr_centers _ _ _ _ _ _ VR); exact (proj1 E3) | auto].
Qed.
Lemma face_ok : wf_facedata dim (dom_face D).
Proof.
  destruct (hf_len _ _ _ _ _ _ _ _ HF) as (L1 & L2 & L3 & L4 & L5). destruct (hf_ghost _ _ _ _ _ _ _ _ HF) as (LG & LN & LM & _). constructor.
  - exact Hd.
  - cbn [dom_face D assembled fd_cellid fd_nodes fd_ghost fd_name fd_normal fd_centerc fd_centerh fd_halofid fd_vertex fd_shift dm_cellid dm_facenodes dm_fghost dm_name dm_normal dm_halofid dm_shift dm_center].
    rewrite !zlen_map, faces_len, zlen_zeros_like by apply zlen_nonneg. pose proof len_center as LC. rewrite zlen_map in LC. repeat split; lia.
  - intros f Hf. change (0 <= f < zlen (h_cellid h)) in Hf. rewrite L1 in Hf. destruct (face_tables f Hf) as (A1 & A2 & A3 & A4 & A5 & _). destruct (face_nodes f Hf) as (B1 & _ & B2).
    cbv zeta. change (fd_name (dom_face D)) with (h_name h). change (fd_cellid (dom_face D)) with (h_cellid h). change (fd_nodes (dom_face D)) with (ge_facenodes g). change (fd_halofid (dom_face D)) with (h_halofid h).
    change (fd_centerc (dom_face D)) with (map cg_center (ge_cells g)). change (fd_centerh (dom_face D)) with (rk_center K). change (fd_vertex (dom_face D)) with vertex. rewrite len_center, A2.
    split; [exact A1|]. split; [exact A3|]. split; [exact B1|]. split; [exact B2|]. split; [|exact A5]. intros [E|E]; [apply A4; exact E|]. rewrite (proj2 (name_not_periodic f Hf)) in E. discriminate.
Qed.
Lemma faces_pos : 0 < zlen (ge_facenodes g).
Proof. rewrite EL. destruct (faceid_row dim vertex nodeid WF cn Hcn 0) as (_ & _ & H); [pose proof (vr_cells _ _ _ _ _ _ VR); split; lia|]. pose proof Hd. specialize (H 0 ltac:(lia)). lia. Qed.
Lemma periodic_ok : let I := {| pi_fcenter := map fg_center (ge_faces g); pi_cellnid := cellnid; pi_vertex := vertex; pi_nodecell := nodecell |} in
  update_periodic f32 dim (zlen nodeid) (zlen vertex) I (h_cellid h) (h_nodeghost h) (h_name h) (h_nodename h) =
  Ok {| pt_cellid := h_cellid h; pt_fid := map (fun c => if c =? 0 then -1 else c) (zeros_like 0 (zlen nodeid)); pt_nid := pad_unique (zeros_like [] (zlen nodeid)); pt_shift := zeros_like p0 (zlen nodeid);
        pt_node := pad_unique (zeros_like [] (zlen vertex)); pt_ghost := h_nodeghost h |}.
Proof.
  cbv zeta. set (I := {| pi_fcenter := _ |}). destruct (hf_len _ _ _ _ _ _ _ _ HF) as (L1 & L2 & L3 & L4 & L5). destruct (hf_ghost _ _ _ _ _ _ _ _ HF) as (LG & LN & LM & _). destruct (nc_len _ _ _ _ (bu_n _ _ _ _ _ P)) as (N1 & N2).
  assert (WP : wf_periodic (zlen nodeid) (zlen vertex) I (h_cellid h) (h_nodeghost h) (h_name h) (h_nodename h)).
  { pose proof faces_pos. pose proof vertex_pos. constructor; cbn [I pi_fcenter pi_vertex pi_nodecell pi_cellnid]; rewrite ?zlen_map, ?faces_len; try lia; [apply zlen_nonneg| | | |].
    - intros f Hf. rewrite LM in Hf. destruct (face_tables f Hf) as (A1 & A2 & A3 & _). rewrite A2. split; [exact A1 | exact A3].
    - intros c Hc. apply cell_row_of. exact Hc.
    - intros i Hi. destruct (node_row_of i Hi) as (X1 & X2 & _). split; assumption.
    - apply (nc_width _ _ _ _ (bu_n _ _ _ _ _ P)). }
  assert (NP : forall a, not_periodic (h_name h) (h_nodename h) a).
  { intros a. assert (A1 : ~ In (low_label a) (h_name h) /\ ~ In (high_label a) (h_name h)).
    { assert (HB : forall l, In l (h_name h) -> l <= 10) by (intros l Hl; apply In_nthZ with (d := 0) in Hl as (f & Hf & <-); rewrite LM in Hf; apply name_not_periodic; exact Hf). split; intros Hl; specialize (HB _ Hl); destruct a; cbn in HB; lia. }
    split; [exact A1|]. assert (HB : forall l, In l (h_nodename h) -> l <= 10) by (intros l Hl; apply In_nthZ with (d := 0) in Hl as (k & Hk & <-); rewrite L3 in Hk; apply node_label; exact Hk). split; intros Hl; specialize (HB _ Hl); destruct a; cbn in HB; lia. }
  rewrite (update_periodic_run f32 I (zlen nodeid) (zlen vertex) (h_name h) (h_nodename h) (h_cellid h) (h_nodeghost h) dim (start (zlen nodeid) (zlen vertex) (h_cellid h) (h_nodeghost h)) Hd); [reflexivity|].
  apply (run_absent f32 I (zlen nodeid) (zlen vertex) (h_name h) (h_nodename h) (h_cellid h) (h_nodeghost h) WP). intros a _. apply NP.
Qed.
End Build.

Lemma build_ok f32 dim size nodeid vertex namen K g cn h nodecell cellnid : valid_rank dim size nodeid vertex namen K -> parts dim size nodeid vertex namen K g cn h nodecell cellnid ->
  exists nv di, let D := assembled dim nodeid vertex namen K g cn h nodecell cellnid nv di in
    build_domain f32 dim size nodeid vertex namen K = Ok D /\ variables dim (dom_node D) = Ok nv /\ face_gradient_info dim (dom_face D) = Ok di.
Proof.
  intros VR P. pose proof (node_ok dim size nodeid vertex namen K VR g cn h nodecell cellnid P [] []) as NO. pose proof (face_ok dim size nodeid vertex namen K VR g cn h nodecell cellnid P [] []) as FO.
  pose proof (variables_ok _ _ _ _ NO) as EV. pose proof (face_info_ok _ _ FO) as EF. match type of EV with _ = Ok ?a => match type of EF with _ = Ok ?b => exists a, b end end. cbv zeta. split; [|split; [exact EV | exact EF]].
  assert (EO : map cg_nodes (ge_cells g) = ocells dim vertex nodeid) by (rewrite (bu_ecs _ _ _ _ _ _ _ _ _ _ _ P), map_map; reflexivity).
  unfold build_domain, first_half. rewrite (bu_g _ _ _ _ _ _ _ _ _ _ _ P). cbn [bind]. rewrite EO. rewrite (bu_nodes _ _ _ _ _ _ _ _ _ _ _ P). cbn [bind]. rewrite (bu_h _ _ _ _ _ _ _ _ _ _ _ P). cbn [bind].
  rewrite zlen_ocells. rewrite (periodic_ok f32 dim size nodeid vertex namen K VR g cn h nodecell cellnid P). cbn [bind]. unfold second_half. cbv zeta. cbn [pr_g pr_h pr_p pr_nodecell pr_cellnid pt_cellid pt_fid pt_nid pt_shift pt_node pt_ghost]. rewrite EO.
  match type of EV with variables _ ?x = Ok ?y => match goal with |- context [variables dim ?z] => change (variables dim z) with (variables dim x); rewrite EV end end. cbn [bind].
  match type of EF with face_gradient_info _ ?x = Ok ?y => match goal with |- context [face_gradient_info dim ?z] => change (face_gradient_info dim z) with (face_gradient_info dim x); rewrite EF end end. cbn [bind].
  rewrite (bu_ecn _ _ _ _ _ _ _ _ _ _ _ P). reflexivity.
Qed.
