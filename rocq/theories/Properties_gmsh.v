(** * Properties_gmsh: from the tags in the mesh file to the domains (C95). *)
From Coq Require Import Reals Lra Permutation Sorted.
From Verif Require Import Py PyLemmas Model_part Spec_part Model_label Spec_label Properties_label Model_conn Spec_conn Proofs_conn2 Model_geom Spec_geom Proofs_geom1 Proofs_geom2 Model_interp Spec_interp Model_fvm Spec_fvm Model_domain Spec_domain Model_parallel Spec_parallel Properties_parallel Model_gmsh Spec_gmsh Proofs_gmsh.
Open Scope Z_scope.

(** C95.  Every node gets the label of its side of lowest direction, and 0 if it is on no side; a facet in the file gets the label of its side from its nodes exactly if it has a node on no
    side of a lower direction.  (Front and back must not be periodic without upper and bottom.) *)
Theorem C95_labels : forall dim M px py pz, dim = 2 \/ dim = 3 -> sides_in_file dim M ->
  exists labels, labels_of_file CellsDict dim px py pz M = Ok labels /\ zlen labels = zlen (mf_points M) /\
    (forall k, 0 <= k < zlen (mf_points M) -> (forall t, ~ on_side M k t) -> nthZ 0 labels k = 0) /\
    (forall k t, on_side M k t -> (forall t', on_side M k t' -> direction t <= direction t') -> nthZ 0 labels k = label_of_side px py pz t) /\
    (forall F t, tagged M F t -> (dim = 3 -> pz = true -> py = true) -> (face_label (priority dim) (map (nthZ 0 labels) F) = label_of_side px py pz t <-> has_own_node M F t)).
Proof.
  intros dim M px py pz HD SI. destruct (labels_file dim M HD SI px py pz) as (labels & E & L & V). exists labels. split; [exact E|]. split; [exact L|]. split; [|split].
  - intros k Hk N. destruct (V k Hk) as [(V0 & _)|(t & _ & ON & _)]; [exact V0 | destruct (N t ON)].
  - intros k t ON MI. assert (Hk : 0 <= k < zlen (mf_points M)). { destruct ON as (i & Hi & HI & _). exact (proj2 (si_facets _ _ SI _ (nthZ_In [] _ _ Hi)) k HI). }
    destruct (V k Hk) as [(_ & N)|(t' & EV & ON' & MI')]; [destruct (N t ON)|]. rewrite EV. f_equal. apply (si_opposite _ _ SI k t' t ON' ON). pose proof (MI t' ON'). pose proof (MI' t ON). lia.
  - intros F t TG PZ. destruct (face_label_file dim M HD SI px py pz labels F t V TG) as (A & B). split; [exact B | intros H; exact (A H PZ)].
Qed.
Print Assumptions C95_labels.
(** If front and back are periodic and upper and bottom are not, then every front or back facet touching upper or bottom (away from in and out) is taken for a part of upper or bottom. *)
Theorem C95_front_and_back_refuted : forall M px, sides_in_file 3 M ->
  exists labels, labels_of_file CellsDict 3 px false true M = Ok labels /\
    forall F t k, tagged M F t -> direction t = 3 -> has_own_node M F t -> In k F -> (forall s, on_side M k s -> direction s <> 1) -> (exists s, on_side M k s /\ direction s = 2) ->
      face_label (priority 3) (map (nthZ 0 labels) F) = 3 \/ face_label (priority 3) (map (nthZ 0 labels) F) = 4.
Proof.
  intros M px SI. destruct (labels_file 3 M (or_intror eq_refl) SI px false true) as (labels & E & L & V). exists labels. split; [exact E|]. intros F t k TG DT OWN Hk N1 ON2. exact (face_label_front 3 M (or_intror eq_refl) SI px labels F t k V eq_refl TG DT OWN Hk N1 ON2).
Qed.
Print Assumptions C95_front_and_back_refuted.
(** The mesh that goes to the partition meets the hypotheses of the theorems on domains and programs (C68 ...) *)
Theorem C95_valid : forall dim SIZE M npart0 epart, mesh_in_file dim M -> sides_in_file dim M -> boundary_tagged dim M -> (forall F t, tagged M F t -> has_own_node M F t) ->
  valid_split dim SIZE (mf_cells M) (mf_points M) npart0 epart ->
  exists labels, labels_of_file CellsDict dim false false false M = Ok labels /\ valid_mesh dim (create_cell_nodeid M) (mf_points M) labels /\ valid_split dim SIZE (create_cell_nodeid M) (mf_points M) npart0 epart /\
    forall F t, tagged M F t -> face_label (priority dim) (map (nthZ 0 labels) F) = t.
Proof.
  intros dim SIZE M npart0 epart MI SI BT OWN VS. pose proof (wm_dim _ _ _ (mi_mesh _ _ MI)) as HD. destruct (labels_file dim M HD SI false false false) as (labels & E & L & V). exists labels. split; [exact E|].
  assert (NP : forall t, label_of_side false false false t = t) by (intros t; unfold label_of_side; destruct (direction t =? 1), (direction t =? 2); reflexivity).
  assert (FL : forall F t, tagged M F t -> face_label (priority dim) (map (nthZ 0 labels) F) = t).
  { intros F t TG. rewrite <- (NP t) at 1. apply (face_label_file dim M HD SI false false false labels F t V TG); [exact (OWN F t TG) | discriminate]. }
  split; [|split; [apply sorted_split; exact VS | exact FL]]. constructor.
  - apply sorted_mesh, (mi_mesh _ _ MI).
  - intros c Hc. unfold create_cell_nodeid in *. pose proof (proj1 (sorted_iscell (mf_cells M) c) Hc) as Hc0. clear Hc; rename Hc0 into Hc. rewrite sorted_cell by exact Hc. apply (nonflat_perm dim (mf_points M) (cell (mf_cells M) c)); [apply Permutation_sym, np_sort_perm | apply (mi_nonflat _ _ MI); exact Hc].
  - apply sorted_proper, (mi_proper _ _ MI).
  - split; [exact L|]. intros l Hl. destruct (In_nthZ 0 _ _ Hl) as (k & Hk & <-). rewrite L in Hk. destruct (V k Hk) as [(-> & _)|(t & -> & ON & _)]; [destruct HD; lia|]. rewrite NP. pose proof (side_known dim M SI k t ON). lia.
  - intros c F H. pose proof (proj1 (sorted_only dim (mf_cells M) c F) H) as H0. destruct (BT c F H0) as (t & TG). rewrite (FL F t TG). apply (tagged_in dim M SI F t TG).
Qed.
Print Assumptions C95_valid.
(** The program  readmesh(file); Domain(dim)  succeeds on any number of ranks; the domains represent the mesh of the file; every boundary facet is one face of the rank that owns its cell and has
    its tag as label; and every face belongs to exactly one of the face lists of its domain. *)
Theorem C95_domains : forall f32 dim SIZE M npart0 epart, mesh_in_file dim M -> sides_in_file dim M -> boundary_tagged dim M -> (forall F t, tagged M F t -> has_own_node M F t) ->
  valid_split dim SIZE (mf_cells M) (mf_points M) npart0 epart ->
  exists st labels, setup_from_file f32 CellsDict dim SIZE false false false M npart0 epart = Ok st /\ represents dim SIZE (create_cell_nodeid M) (mf_points M) labels epart (se_domains st) /\
    (forall c F t, only_cell dim (mf_cells M) c F -> tagged M F t -> let D := domain_of (se_domains st) (owner epart c) in
       exists f, gface D f F /\ nthZ 0 (dm_name D) f = t /\ forall f', gface D f' F -> f' = f) /\
    (forall r f, 0 <= r < SIZE -> let D := domain_of (se_domains st) r in isface D f -> categories_of (face_lists dim (dm_name D)) f = 1%nat).
Proof.
  intros f32 dim SIZE M npart0 epart MI SI BT OWN VS. pose proof (wm_dim _ _ _ (mi_mesh _ _ MI)) as HD. destruct (C95_valid dim SIZE M npart0 epart MI SI BT OWN VS) as (labels & E & VM & VS' & FL).
  destruct (C68_parallel_setup f32 dim SIZE (create_cell_nodeid M) (mf_points M) labels npart0 epart VM VS') as (st & ES & RP & CS & _). exists st, labels. split; [unfold setup_from_file; rewrite E; exact ES|]. split; [exact RP|]. split.
  - intros c F t OC TG D. assert (OC' : only_cell dim (create_cell_nodeid M) c F) by (apply sorted_only; exact OC). pose proof (proj1 OC') as HF. assert (Hr : 0 <= owner epart c < SIZE) by (apply (proj2 (vs_owners _ _ _ _ _ _ VS)), (proj1 (proj1 OC))).
    pose proof (rp_part _ _ _ _ _ _ _ RP _ Hr) as PA. fold D in PA. destruct (pa_facets _ _ _ _ _ _ _ PA c F HF eq_refl) as (f & GF & UF). exists f. split; [exact GF|]. split; [|exact UF].
    destruct (pa_kinds _ _ _ _ _ _ _ PA f c F HF GF) as [a b Ca Cb two sides row name | a Ca one row name label | a Ca Hh other sides row name].
    + exfalso. assert (A : gcell D a = c) by (apply (proj2 OC'), sides; auto). assert (B : gcell D b = c) by (apply (proj2 OC'), sides; auto). apply two. pose proof (pa_cells _ _ _ _ _ _ _ PA) as EL.
      assert (ND : NoDup (dm_loctoglob D)) by (rewrite EL; apply NoDup_filter, NoDup_range). unfold iscell_of, gcell in *. unfold nthZ in A, B. unfold zlen in Ca, Cb. pose proof (proj1 (NoDup_nth _ (-1)) ND (Z.to_nat a) (Z.to_nat b) ltac:(lia) ltac:(lia) ltac:(congruence)). lia.
    + rewrite name. exact (FL F t TG).
    + exfalso. apply other. f_equal. apply (proj2 OC'), sides. auto.
  - intros r f Hr D If. pose proof (rp_part _ _ _ _ _ _ _ RP _ Hr) as PA. fold D in PA. destruct (pa_faces _ _ _ _ _ _ _ PA f If) as (c & F & HF & Oc & GF).
    assert (LN : zlen (dm_name D) = zlen (dm_facenodes D)). { destruct (cs_faces _ _ (CS r Hr)) as (WF & _). fold D in WF. destruct (wfa_len _ _ WF) as (A & _ & B & _). unfold dom_face in A, B. cbn in A, B. congruence. }
    rewrite C16_one_category_iff_label_known_partial; [|exact HD | unfold isface in If; rewrite LN; exact If].
    assert (KN : In (nthZ 0 (dm_name D) f) (known_labels dim)); [|rewrite (proj2 (mem_In _ _) KN); reflexivity].
    destruct (pa_kinds _ _ _ _ _ _ _ PA f c F HF GF) as [a b Ca Cb two sides row name | a Ca one row name label | a Ca Hh other sides row name].
    + rewrite name. unfold known_labels. apply in_or_app. left. cbn. tauto.
    + unfold known_labels. apply in_or_app. destruct HD as [D2|D3]; [left; cbn; lia|]. rewrite D3 in *. destruct (Z_le_gt_dec (nthZ 0 (dm_name D) f) 4); [left; cbn; lia | right; cbn; lia].
    + rewrite name. unfold known_labels. apply in_or_app. left. cbn. tauto.
Qed.
Print Assumptions C95_domains.
