(** * Properties_halo: C21, C22.
    Vocabulary: [Spec_geom], [Spec_conn] and [Spec_halo] (halo_nodes, ishalo, globals, halo_has, mirror). *)
From Verif Require Import Py PyLemmas Model_part Model_label Model_conn Spec_conn Proofs_conn1 Proofs_conn2 Proofs_conn3 Model_geom Spec_geom Proofs_geom1 Proofs_geom2 Model_halo Spec_halo Proofs_halo1 Proofs_halo2 Proofs_halo3 Properties_conn Properties_geom.
From Coq Require Import Permutation Sorting.Sorted Lra ZifyBool.
Open Scope Z_scope.

Lemma face_label_nonneg prio ls : (forall l, In l ls -> 0 <= l) -> (forall p, In p prio -> 0 <= p) -> 0 <= face_label prio ls.
Proof.
  intros H Hp. unfold face_label. destruct ls as [|v t]; [lia|]. destruct (forallb _ t); [apply H; left; reflexivity|]. destruct (mem 0 _); [lia|].
  destruct (find _ prio) as [p|] eqn:E; [|lia]. apply find_some in E as (E & _). apply Hp; exact E.
Qed.
Lemma face_name_nonneg dim vertex namen nodeid g f : wf_mesh dim (zlen vertex) nodeid -> zlen namen = zlen vertex -> build_geometry dim nodeid vertex namen = Ok g ->
  (forall l, In l namen -> 0 <= l) -> 0 <= f < zlen (ge_facenodes g) -> 0 <= fg_name (nthZ fg0 (ge_faces g) f).
Proof.
  intros WF HN Hg Hl Hf. destruct (geometry_facts dim vertex namen nodeid WF HN g Hg) as (cn & Hcn & Ecn & _ & Ef & EL & _). rewrite EL in Hf, Ef.
  rewrite Ef. rewrite (nthZ_map _ 0) by (rewrite zlen_range; lia). rewrite nthZ_range by lia. cbn [facegeo_of fg_name]. destruct (_ =? -1); [|lia].
  destruct (face_row dim vertex nodeid WF cn Hcn f Hf) as (HLF & _ & HR). unfold label.
  assert (HI : forall l, In l (map (nthZ 0 namen) (nthZ [] (cn_faces cn) f)) -> 0 <= l) by (intros l Hin; apply in_map_iff in Hin as (k & <- & Hk); apply Hl, nthZ_In; rewrite HN; apply HR; exact Hk).
  destruct (map (nthZ 0 namen) (nthZ [] (cn_faces cn) f)) as [|a [|b [|c [|]]]]; try lia.
  - rewrite name2_spec. apply face_label_nonneg; [exact HI|]. cbn. lia.
  - rewrite name3_spec. apply face_label_nonneg; [exact HI|]. cbn. lia.
Qed.
Lemma face_label_not10 dim ls : (forall l, In l ls -> l <> 10) -> face_label (priority dim) ls <> 10.
Proof.
  intros H. unfold face_label. destruct ls as [|v t]; [lia|]. destruct (forallb _ t); [apply H; left; reflexivity|]. destruct (mem 0 _); [lia|].
  destruct (find _ _) as [p|] eqn:E; [|lia]. apply find_some in E as (_ & E). apply mem_In in E. apply H; exact E.
Qed.
Lemma face_name_not10 dim vertex namen nodeid g f : wf_mesh dim (zlen vertex) nodeid -> zlen namen = zlen vertex -> build_geometry dim nodeid vertex namen = Ok g ->
  (forall l, In l namen -> l <> 10) -> 0 <= f < zlen (ge_facenodes g) -> fg_name (nthZ fg0 (ge_faces g) f) <> 10.
Proof.
  intros WF HN Hg Hl Hf.
  destruct (geometry_facts dim vertex namen nodeid WF HN g Hg) as (cn & Hcn & Ecn & _ & Ef & EL & _). rewrite EL in Hf, Ef.
  rewrite Ef. rewrite (nthZ_map _ 0) by (rewrite zlen_range; lia). rewrite nthZ_range by lia. cbn [facegeo_of fg_name]. destruct (_ =? -1); [|lia].
  destruct (face_row dim vertex nodeid WF cn Hcn f Hf) as (HLF & _ & HR). unfold label.
  assert (HI : forall l, In l (map (nthZ 0 namen) (nthZ [] (cn_faces cn) f)) -> l <> 10) by (intros l Hin; apply in_map_iff in Hin as (k & <- & Hk); apply Hl, nthZ_In; rewrite HN; apply HR; exact Hk).
  destruct (map (nthZ 0 namen) (nthZ [] (cn_faces cn) f)) as [|a [|b [|c [|]]]]; try lia.
  - rewrite name2_spec. apply face_label_not10; exact HI.
  - rewrite name3_spec. apply face_label_not10; exact HI.
Qed.
Lemma has_ghost_iff dim name : (dim = 2 \/ dim = 3) -> 0 <= name -> has_ghost dim name = (1 <=? name) && (name <=? 2 * dim).
Proof. intros [-> | ->] H; unfold has_ghost; cbn [Z.eqb Pos.eqb]; lia. Qed.

(** hypotheses shared by the theorems of this file: a well-formed mesh of non-degenerate cells whose node labels are
    non-negative and not the reserved label 10, and the geometry the code computes from it *)
Definition local_mesh (dim : Z) (vertex : list pt) (namen : list Z) (nodeid : list (list Z)) (g : geometry) : Prop :=
  wf_mesh dim (zlen vertex) nodeid /\ zlen namen = zlen vertex /\ (forall k, iscell nodeid k -> nonflat dim vertex (cell nodeid k)) /\
  (forall l, In l namen -> 0 <= l /\ l <> 10) /\ build_geometry dim nodeid vertex namen = Ok g.
(** one rank, or several with a table of halo cells and an injective local-to-global numbering *)
Definition parallel_data (dim size nbnodes : Z) (halosext : list (list Z)) (loctoglob : list Z) : Prop :=
  size = 1 \/ (1 < size /\ zlen loctoglob = nbnodes /\ NoDup loctoglob /\ wf_halos dim halosext).

(** Every face labelled 1 .. 2*dim has a ghost centre, the mirror image of the centre of its cell; the list of ghosts
    of a node is the list of those faces among the faces containing it, in increasing order. *)
Theorem C21_ghost_centres : forall dim vertex namen nodeid g size halosext loctoglob h,
  local_mesh dim vertex namen nodeid g -> parallel_data dim size (zlen vertex) halosext loctoglob ->
  create_halo_structure dim size g vertex namen halosext loctoglob = Ok h ->
  let nf := zlen (ge_facenodes g) in let F f := nthZ [] (ge_facenodes g) f in
  let name f := nthZ 0 (h_name h) f in let left_cell f := nthZ 0 (nthZ [] (cn_cellid (ge_conn g)) f) 0 in
  let ghost f := gc_pt (nthZ gc0 (h_ghost h) f) in
  (forall f, 0 <= f < nf -> 1 <= name f <= 2 * dim -> mirror vertex (F f) (cg_center (nthZ (cg0 []) (ge_cells g) (left_cell f))) (ghost f)) /\
  (forall k, 0 <= k < zlen vertex -> let L := nthZ [] (h_nodeghost h) k in
     StronglySorted Z.lt (map ng_face L) /\
     (forall f, In f (map ng_face L) <-> 0 <= f < nf /\ In k (F f) /\ 1 <= name f <= 2 * dim) /\
     forall e, In e L -> let f := ng_face e in
       ng_pt e = ghost f /\ ng_cell e = left_cell f /\ ng_name e = name f /\
       ng_fcenter e = fg_center (nthZ fg0 (ge_faces g) f) /\ ng_fnormal e = fg_normal (nthZ fg0 (ge_faces g) f)).
Proof.
  intros dim vertex namen nodeid g size halosext loctoglob h (WF & HN & NFL & HNM & Hg) PD Eh. cbv zeta.
  assert (N10 : ~ In 10 namen) by (intros H; destruct (HNM 10 H) as (_ & H'); apply H'; reflexivity).
  assert (NN : forall f, 0 <= f < zlen (ge_facenodes g) -> 0 <= fg_name (nthZ fg0 (ge_faces g) f)) by (intros f Hf; eapply face_name_nonneg; eauto; intros l Hl; apply HNM; exact Hl).
  destruct (Z_lt_dec 0 (zlen vertex)) as [Hpos|Hpos].
  2: { split; [|intros k Hk; lia]. intros f Hf. exfalso. destruct (Fo_facts dim vertex namen nodeid WF HN g Hg f Hf) as (Hd & _ & Hr).
       destruct (nthZ [] (ge_facenodes g) f) as [|k l]; [unfold zlen in Hd; cbn in Hd; destruct (wm_dim _ _ _ WF); lia | specialize (Hr k (or_introl eq_refl)); lia]. }
  assert (GC : ghost_claim dim vertex g h /\ forall f, 0 <= f < zlen (ge_facenodes g) -> 0 <= nthZ 0 (h_name h) f).
  { destruct PD as [-> | (Hs & HL & HND & WH)].
    - destruct (sequential dim vertex namen nodeid WF HN NFL g Hg halosext loctoglob) as (h' & E & GC & _ & En & _). rewrite Eh in E. injection E as <-. split; [exact GC|].
      intros f Hf. rewrite En. rewrite (nthZ_map _ fg0); [apply NN; exact Hf|].
      destruct (geometry_facts dim vertex namen nodeid WF HN g Hg) as (cn & _ & _ & _ & Ef & _). rewrite Ef, zlen_map, zlen_range by apply zlen_nonneg. exact Hf.
    - destruct (existsb (fun f => existsb (fun hh => forallb (fun x => mem x (halo_nodes halosext hh)) (globals loctoglob (nthZ [] (ge_facenodes g) f))) (range (zlen halosext))) (range (zlen (ge_facenodes g)))) eqn:Ex.
      + apply existsb_exists in Ex as (f & Hf & Ex). apply existsb_exists in Ex as (hh & Hh & Ex). apply in_range in Hf, Hh.
        assert (Ht : exists f h, 0 <= f < zlen (ge_facenodes g) /\ halo_has loctoglob halosext (nthZ [] (ge_facenodes g) f) h).
        { exists f, hh. split; [exact Hf|]. split; [exact Hh|]. intros x Hx. rewrite forallb_forall in Ex. apply mem_In, Ex, Hx. }
        destruct (whole dim vertex namen nodeid WF HN NFL g Hg size halosext loctoglob Hs HL HND WH Ht N10) as (h' & E & GC & _ & _ & _ & _ & Hfa & _). rewrite Eh in E. injection E as <-. split; [exact GC|].
        intros f' Hf'. destruct (touches_dec g halosext loctoglob f') as [T|T]; [rewrite (proj1 (proj2 (proj1 (Hfa f' Hf') T))); lia | rewrite (proj2 (proj2 (Hfa f' Hf') T)); apply NN; exact Hf'].
      + assert (Hnone : forall f h, 0 <= f < zlen (ge_facenodes g) -> ~ halo_has loctoglob halosext (nthZ [] (ge_facenodes g) f) h).
        { intros f hh Hf (Hh & Hi). rewrite <- not_true_iff_false in Ex. apply Ex. apply existsb_exists. exists f. split; [apply in_range; exact Hf|]. apply existsb_exists. exists hh. split; [apply in_range; exact Hh|].
          apply forallb_forall. intros x Hx. apply mem_In, Hi, Hx. }
        rewrite (whole_err dim vertex namen nodeid WF HN NFL g Hg size halosext loctoglob Hs HL HND WH Hnone N10 Hpos) in Eh. discriminate. }
  destruct GC as ((LG & LN & LM & Hcol & Hmir & Hno) & Hnn). split.
  - intros f Hf Hn. rewrite <- Hcol by exact Hf. apply Hmir; [exact Hf|]. rewrite has_ghost_iff; [lia | apply (wm_dim _ _ _ WF) | lia].
  - intros k Hk. destruct (Hno k Hk) as (HF & He). split; [rewrite HF; apply sorted_lt_filter, Sorted_lt_range|]. split.
    + intros f. rewrite HF, filter_In, in_range, andb_true_iff, mem_In. split.
      * intros (Hf & Hh & Hin). split; [exact Hf|]. split; [exact Hin|]. rewrite has_ghost_iff in Hh; [lia | apply (wm_dim _ _ _ WF) | apply Hnn; exact Hf].
      * intros (Hf & Hin & Hh). split; [exact Hf|]. split; [|exact Hin]. rewrite has_ghost_iff; [lia | apply (wm_dim _ _ _ WF) | lia].
    + intros e Hin. specialize (He e Hin). cbv zeta in He. assert (Hf : 0 <= ng_face e < zlen (ge_facenodes g)).
      { apply (in_map ng_face) in Hin. rewrite HF in Hin. apply filter_In in Hin as (Hin & _). apply in_range in Hin. exact Hin. }
      rewrite <- Hcol by exact Hf. exact He.
Qed.
Print Assumptions C21_ghost_centres.

(** With one rank the structure is always built and changes no label. *)
Theorem C21_sequential : forall dim vertex namen nodeid g halosext loctoglob, local_mesh dim vertex namen nodeid g ->
  exists h, create_halo_structure dim 1 g vertex namen halosext loctoglob = Ok h /\
    h_cellid h = cn_cellid (ge_conn g) /\ h_name h = map fg_name (ge_faces g) /\ h_nodename h = namen /\ h_loctoglob h = range (zlen vertex).
Proof.
  intros dim vertex namen nodeid g halosext loctoglob (WF & HN & NFL & HNM & Hg).
  destruct (sequential dim vertex namen nodeid WF HN NFL g Hg halosext loctoglob) as (h & E & _ & H). exists h. split; [exact E | exact H].
Qed.
Print Assumptions C21_sequential.

Section C22.
Context (dim size : Z) (vertex : list pt) (namen : list Z) (nodeid : list (list Z)) (g : geometry) (halosext : list (list Z)) (loctoglob : list Z).
(** face f of the local mesh is a face of halo cell c *)
Let touches (f c : Z) : Prop := halo_has loctoglob halosext (nthZ [] (ge_facenodes g) f) c.
(** local node k is a node of such a face *)
Let onhalo (k : Z) : Prop := exists f c, 0 <= f < zlen (ge_facenodes g) /\ In k (nthZ [] (ge_facenodes g) f) /\ touches f c.
Definition has_halo_face : Prop := exists f c, 0 <= f < zlen (ge_facenodes g) /\ touches f c.

(** Partition-boundary faces: label 10, second cell -10 and the index of a halo cell on the other side; every other face
    keeps its label and cells; label 10 is given to no other face. *)
Theorem C22_partition_faces : local_mesh dim vertex namen nodeid g -> 1 < size -> parallel_data dim size (zlen vertex) halosext loctoglob -> has_halo_face ->
  exists h, create_halo_structure dim size g vertex namen halosext loctoglob = Ok h /\
  zlen (h_name h) = zlen (ge_facenodes g) /\ zlen (h_cellid h) = zlen (ge_facenodes g) /\ zlen (h_halofid h) = zlen (ge_facenodes g) /\
  forall f, 0 <= f < zlen (ge_facenodes g) ->
    (nthZ 0 (h_name h) f = 10 <-> exists c, touches f c) /\
    (nthZ 0 (h_name h) f = 10 -> touches f (nthZ 0 (h_halofid h) f) /\
       nthZ [] (h_cellid h) f = [nthZ 0 (nthZ [] (cn_cellid (ge_conn g)) f) 0; -10]) /\
    (nthZ 0 (h_name h) f <> 10 -> nthZ 0 (h_name h) f = fg_name (nthZ fg0 (ge_faces g) f) /\
       nthZ [] (h_cellid h) f = nthZ [] (cn_cellid (ge_conn g)) f).
Proof.
  intros (WF & HN & NFL & HNM & Hg) Hs [->|(_ & HL & HND & WH)]; [lia|]. intros Ht.
  assert (N10 : ~ In 10 namen) by (intros H; destruct (HNM 10 H) as (_ & H'); apply H'; reflexivity).
  destruct (whole dim vertex namen nodeid WF HN NFL g Hg size halosext loctoglob Hs HL HND WH Ht N10) as (h & E & GC & L1 & L2 & _ & _ & Hfa & _). exists h. split; [exact E|].
  destruct GC as (_ & _ & LM & _). split; [exact LM|]. split; [exact L1|]. split; [exact L2|]. intros f Hf.
  assert (NE : fg_name (nthZ fg0 (ge_faces g) f) <> 10) by (apply (face_name_not10 dim vertex namen nodeid g f WF HN Hg); [intros l Hl; apply HNM; exact Hl | exact Hf]).
  destruct (Hfa f Hf) as (A & B). destruct (touches_dec g halosext loctoglob f) as [T|T].
  - destruct (A T) as (A1 & A2 & A3). split; [split; auto|]. split; [auto | congruence].
  - destruct (B T) as (B1 & B2). split; [|split; [congruence | auto]]. split; [congruence | intros (c & Hc); exfalso; exact (T c Hc)].
Qed.

(** Node labels and halo stencils: a node of such a face gets label 10 and the list of the halo cells containing it, any
    other node keeps its label and has an empty list; the stencil of a cell collects those of its nodes. *)
Theorem C22_halo_stencils : local_mesh dim vertex namen nodeid g -> 1 < size -> parallel_data dim size (zlen vertex) halosext loctoglob -> has_halo_face ->
  exists h, create_halo_structure dim size g vertex namen halosext loctoglob = Ok h /\
  zlen (h_nodename h) = zlen vertex /\ zlen (h_nodehalo h) = zlen vertex /\ zlen (h_cellhalo h) = zlen nodeid /\ h_loctoglob h = loctoglob /\
  (forall k, 0 <= k < zlen vertex -> (onhalo k -> nthZ 0 (h_nodename h) k = 10) /\ (~ onhalo k -> nthZ 0 (h_nodename h) k = nthZ 0 namen k)) /\
  (forall k, 0 <= k < zlen vertex -> exists W pad, nthZ [] (h_nodehalo h) k = W ++ pad ++ [zlen W] /\ NoDup W /\
     forall c, In c W <-> onhalo k /\ ishalo halosext c /\ In (nthZ 0 loctoglob k) (halo_nodes halosext c)) /\
  (forall i, iscell nodeid i -> exists U pad, nthZ [] (h_cellhalo h) i = U ++ pad ++ [zlen U] /\ NoDup U /\
     forall c, In c U <-> exists k, In k (cell nodeid i) /\ onhalo k /\ ishalo halosext c /\ In (nthZ 0 loctoglob k) (halo_nodes halosext c)).
Proof.
  intros (WF & HN & NFL & HNM & Hg) Hs [->|(_ & HL & HND & WH)]; [lia|]. intros Ht.
  assert (N10 : ~ In 10 namen) by (intros H; destruct (HNM 10 H) as (_ & H'); apply H'; reflexivity).
  destruct (whole dim vertex namen nodeid WF HN NFL g Hg size halosext loctoglob Hs HL HND WH Ht N10) as (h & E & _ & _ & _ & L3 & EL & _ & Hn & L4 & HW & L5 & HU). exists h. split; [exact E|].
  split; [exact L3|]. split; [exact L4|]. split; [exact L5|]. split; [exact EL|]. split; [exact Hn|]. split; [|exact HU].
  intros k Hk. destruct (HW k Hk) as (W & pad & EW & HS & HI). exists W, pad. split; [exact EW|]. split; [apply sorted_lt_NoDup; exact HS | exact HI].
Qed.

(** FINDING: "with more than one rank the structure is built for every local mesh" is false: a rank none of whose faces is
    a face of a halo cell raises IndexError (numba_ddm.py:424-427: the table of node halos has no column to write -1 in). *)
Theorem C22_no_halo_face_refuted : local_mesh dim vertex namen nodeid g -> 1 < size -> parallel_data dim size (zlen vertex) halosext loctoglob -> 0 < zlen vertex ->
  ~ has_halo_face -> create_halo_structure dim size g vertex namen halosext loctoglob = Err IndexError.
Proof.
  intros (WF & HN & NFL & HNM & Hg) Hs [->|(_ & HL & HND & WH)] Hp Hno; [lia|].
  apply (whole_err dim vertex namen nodeid WF HN NFL g Hg size halosext loctoglob Hs HL HND WH); [|intros H; destruct (HNM 10 H) as (_ & H'); apply H'; reflexivity | exact Hp].
  intros f c Hf Hc. apply Hno. exists f, c. auto.
Qed.
End C22.
Print Assumptions C22_partition_faces.
Print Assumptions C22_halo_stencils.
Print Assumptions C22_no_halo_face_refuted.

(** ** Concrete data: the first triangle of the unit square, the second being a halo cell of another rank *)
Definition tri_v := [P3 0 0 0; P3 1 0 0; P3 1 1 0].
Definition tri := [[0; 1; 2]].
Definition tri_halo := [[1; 0; 3; 2]].
Example tri_wf : wf_mesh 2 (zlen tri_v) tri.
Proof. apply wf_by_rows; [auto|]. repeat constructor; cbn; lia. Qed.
Example tri_local : exists g, local_mesh 2 tri_v [1; 1; 2] tri g.
Proof.
  destruct (c15 2 tri_v [1; 1; 2] tri tri_wf eq_refl) as (g & E & _). exists g. split; [exact tri_wf|]. split; [reflexivity|]. split.
  { intros k Hk. unfold iscell in Hk. change (zlen tri) with 1 in Hk. assert (k = 0) as -> by lia.
    change (2 = 2 /\ turn (P3 0 0 0) (P3 1 0 0) (P3 1 1 0) <> 0%R). split; [reflexivity|]. unfold turn; cbn [px py]. lra. }
  split; [cbn; lia | exact E].
Qed.
Example tri_parallel : parallel_data 2 2 (zlen tri_v) tri_halo [0; 1; 2].
Proof.
  right. split; [lia|]. split; [reflexivity|]. split; [repeat constructor; cbn; lia|].
  intros h Hh. unfold ishalo in Hh. change (zlen tri_halo) with 1 in Hh. assert (h = 0) as -> by lia. split; [reflexivity|]. repeat constructor; cbn; lia.
Qed.
Example tri_touches : forall g, local_mesh 2 tri_v [1; 1; 2] tri g -> has_halo_face g tri_halo [0; 1; 2].
Proof.
  intros g (WF & HN & _ & _ & Hg). destruct (build_geometry_ok 2 tri_v [1; 1; 2] tri WF HN) as (cn & g' & E & Hcn & E1 & _ & _ & _ & _ & E5). rewrite Hg in E. injection E as <-.
  destruct (c11 2 (zlen tri_v) _ (WFo 2 tri_v tri WF)) as (cn' & E' & _ & HI & _). rewrite Hcn in E'. injection E' as <-.
  assert (Hin : In [0; 2] (cn_faces cn)).
  { apply HI. exists 0. split; [unfold iscell; rewrite zlen_ocells; cbn; lia|]. split; [repeat constructor; lia|]. split; [reflexivity|].
    intros x Hx. eapply Permutation_in; [symmetry; apply (ocell_perm 2 tri_v tri WF 0); unfold iscell; cbn; lia|]. cbn in Hx |- *. lia. }
  apply (In_nthZ []) in Hin as (f & Hf & Ef). exists f, 0. rewrite (E5 eq_refl). split; [exact Hf|]. split; [unfold ishalo; change (zlen tri_halo) with 1; lia|]. rewrite Ef.
  change (incl [0; 2] [0; 3; 2]). intros x Hx. cbn in Hx |- *. lia.
Qed.
(** a rank whose halo cells share only a node with it: no halo face *)
Example tri_no_touch : forall g, local_mesh 2 tri_v [1; 1; 2] tri g -> ~ has_halo_face g [[1; 0; 3; 4]] [0; 1; 2].
Proof.
  intros g (WF & HN & _ & _ & Hg) (f & c & Hf & (Hc & Hi)). unfold ishalo in Hc. change (zlen [[1; 0; 3; 4]]) with 1 in Hc. assert (c = 0) as -> by lia.
  destruct (Fo_facts 2 tri_v [1; 1; 2] tri WF HN g Hg f Hf) as (HL & HND & HR). destruct (list2 _ HL) as (a & b & EF). rewrite EF in *.
  pose proof (HR a ltac:(cbn; auto)) as Ra. pose proof (HR b ltac:(cbn; auto)) as Rb. change (zlen tri_v) with 3 in *.
  assert (Hab : a <> b) by (intros ->; apply NoDup_cons_iff in HND as (HN1 & _); apply HN1; left; reflexivity).
  assert (G : forall x, In x [a; b] -> nthZ 0 [0; 1; 2] x = 0 \/ nthZ 0 [0; 1; 2] x = 3 \/ nthZ 0 [0; 1; 2] x = 4).
  { intros x Hx. specialize (Hi (nthZ 0 [0; 1; 2] x) (in_map _ _ _ Hx)). cbn [halo_nodes tl nthZ] in Hi. unfold halo_nodes in Hi. change (nthZ [] [[1; 0; 3; 4]] 0) with [1; 0; 3; 4] in Hi. cbn [tl In] in Hi. lia. }
  assert (Q : forall x, 0 <= x < 3 -> nthZ 0 [0; 1; 2] x = x) by (intros x Hx; assert (D : x = 0 \/ x = 1 \/ x = 2) by lia; destruct D as [-> | [-> | ->]]; reflexivity).
  pose proof (G a ltac:(cbn; auto)) as Ga. pose proof (G b ltac:(cbn; auto)) as Gb. rewrite Q in Ga, Gb by lia. lia.
Qed.
