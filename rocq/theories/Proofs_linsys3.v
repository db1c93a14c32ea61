(** * Proofs_linsys3: the size of the triplet arrays (C38). *)
From Verif Require Import Py PyLemmas Model_part Model_conn Spec_conn Model_geom Spec_geom Model_halo Model_interp Spec_interp Proofs_conn1 Proofs_interp1 Proofs_interp2 Model_bc Model_linsys Spec_linsys Proofs_linsys1 Proofs_linsys2.
From Coq Require Import ZifyBool.
Open Scope Z_scope.

Lemma zlen_flat_const {A B} (f : A -> list B) n l : (forall x, In x l -> zlen (f x) = n) -> zlen (flat_map f l) = n * zlen l.
Proof.
  induction l as [|x l IH]; intros H; cbn [flat_map]; [change (zlen (@nil B)) with 0; change (zlen (@nil A)) with 0; lia|]. rewrite zlen_app, zlen_cons, IH by (intros; apply H; right; assumption). rewrite (H x) by (left; reflexivity). lia.
Qed.
Lemma foldM_step {A} (g : A -> Z) (f : Z -> A -> res Z) l : (forall x k, In x l -> f k x = Ok (k + g x)) -> forall k, foldM f l k = Ok (k + fold_right (fun x s => g x + s) 0 l).
Proof.
  induction l as [|x l IH]; intros H k; cbn [foldM fold_right]; [f_equal; lia|]. rewrite H by (left; reflexivity). cbn [bind]. rewrite IH by (intros; apply H; right; assumption). f_equal. lia.
Qed.
Lemma sum_zlen {A B} (e : A -> list B) l : fold_right (fun x s => zlen (e x) + s) 0 l = zlen (flat_map e l).
Proof. induction l as [|x l IH]; cbn [fold_right flat_map]; [reflexivity|]. rewrite zlen_app, IH. reflexivity. Qed.
Lemma sum_zlen_plus {A B} (e : A -> list B) d l : fold_right (fun x s => (zlen (e x) + d) + s) 0 l = zlen (flat_map e l) + d * zlen l.
Proof. induction l as [|x l IH]; cbn [fold_right flat_map]; [change (zlen (@nil A)) with 0; change (zlen (@nil B)) with 0; lia|]. rewrite zlen_app, IH, zlen_cons. lia. Qed.

Lemma count_rows_ok row n step k : row_ok n row -> count_rows row step k = Ok (k + step * zlen (counted row)).
Proof.
  intros (HL & HC & HR). unfold count_rows. rewrite (get_last 0) by exact HL. cbn [bind]. fold (row_count row).
  assert (E : zlen (counted row) = row_count row). { clear HR. unfold counted. unfold zlen at 1. rewrite firstn_length. unfold zlen in HC. lia. } rewrite E.
  rewrite (foldM_step (fun _ => step)) by (intros; reflexivity). f_equal. f_equal.
  assert (HG : forall l : list Z, fold_right (fun _ s => step + s) 0 l = step * zlen l). { induction l as [|y l IH]; [change (zlen (@nil Z)) with 0; cbn [fold_right]; lia|]. cbn [fold_right]. rewrite IH, zlen_cons. lia. }
  rewrite HG, zlen_range by lia. reflexivity.
Qed.
Lemma count_ghosts_ok rows step k : count_ghosts rows step k = Ok (k + step * zlen (real_ghosts rows)).
Proof.
  unfold count_ghosts, real_ghosts. revert k. induction rows as [|e rows IH]; intros k; cbn [foldM filter]; [change (zlen (@nil gentry)) with 0; f_equal; lia|]. cbn [bind]. rewrite IH. destruct (g_last e =? -1); cbn [negb]; f_equal; rewrite ?zlen_cons; lia.
Qed.

Section Size.
Context (dim : Z) (S : lsys) (L : sylists) (nf nhg : Z) (WF : wf_lsys dim S L nf nhg) (Hdim : dim = 2 \/ dim = 3).
Definition stepof (r : option Z) : Z := match r with Some _ => 2 | None => 1 end.
Lemma node_entries_len l r per param k : zlen (node_entries dim S l r per param k) = if is_dir S k then 0 else stepof r * zlen (around dim S per k).
Proof. unfold node_entries. destruct (is_dir S k); [reflexivity|]. apply zlen_flat_const. intros pc _. unfold pair_entries. destruct r; reflexivity. Qed.
Lemma node_size_ok l r per param k c : 0 <= k < nbnodes S -> node_size S (stepof r) per c k = Ok (c + zlen (node_entries dim S l r per param k)).
Proof.
  intros Hk. rewrite node_entries_len. pose proof (wy_N _ _ _ _ _ WF) as WN. destruct (wn_len _ _ _ _ WN) as (L1 & L2 & L3 & L4 & L5 & L6 & L7 & L8). fold (nbnodes S) in *. destruct (wy_rows _ _ _ _ _ WF k Hk) as (R1 & R2 & R3).
  unfold node_size. cbv zeta. rewrite (get_nthZ 0 (nd_old (sy_N S))) by lia. cbn [bind]. rewrite search_dir. destruct (is_dir S k); cbn [negb]; [f_equal; lia|].
  rewrite (get_nthZ [] (nd_cellid (sy_N S))), (get_nthZ [] (nd_ghost (sy_N S))), (get_nthZ [] (nd_haloghost (sy_N S))), (get_nthZ [] (nd_haloid (sy_N S))), (get_nthZ [] (nd_periodic (sy_N S))) by lia. cbn [bind].
  rewrite (count_rows_ok _ (zlen (nd_centerc (sy_N S)))) by apply (wn_cell _ _ _ _ WN k Hk). cbn [bind]. rewrite count_ghosts_ok. cbn [bind]. rewrite count_ghosts_ok. cbn [bind].
  assert (E : zlen (around dim S per k) = zlen (counted (nthZ [] (nd_cellid (sy_N S)) k)) + zlen (real_ghosts (nthZ [] (nd_ghost (sy_N S)) k)) + zlen (real_ghosts (nthZ [] (nd_haloghost (sy_N S)) k)) +
    (if per then zlen (counted (nthZ [] (nd_periodic (sy_N S)) k)) else 0) + zlen (counted (nthZ [] (nd_haloid (sy_N S)) k))).
  { unfold around. destruct (dim =? 2), per; rewrite !zlen_app; unfold cells_at, ghosts_at, haloghosts_at, halos_at, periodics_at; rewrite !zlen_map; rewrite ?zlen_map; change (zlen (@nil (pt * Z))) with 0; lia. }
  rewrite E. destruct per; cbn [bind]; [rewrite (count_rows_ok _ _ _ _ R3); cbn [bind]|]; rewrite (count_rows_ok _ _ _ _ R2); f_equal; lia.
Qed.
(** the nodes visited by the size functions of a face *)
Lemma weighted_nodes_in f pn : 0 <= f < zlen (fd_cellid (sy_G S)) -> In pn (weighted_nodes dim S f) -> 0 <= snd pn < nbnodes S.
Proof.
  intros Hf H. destruct (face_nodes dim S L nf nhg WF f Hf) as (_ & HL & HK). unfold weighted_nodes in H. cbv zeta in H.
  destruct Hdim as [E|E]; rewrite E in H, HL; cbn [Z.eqb Pos.eqb] in H; repeat (destruct H as [<-|H]; [cbn [snd]; apply HK, nthZ_In; lia|]); destruct H.
Qed.
Lemma nodes_size_ok r per l f c : 0 <= f < zlen (fd_cellid (sy_G S)) ->
  foldM (node_size S (stepof r) per) (map snd (weighted_nodes dim S f)) c = Ok (c + zlen (nodes_entries dim S l r per f)).
Proof.
  intros Hf. rewrite foldM_map. rewrite (foldM_step (fun pn => zlen (node_entries dim S l r per (fst pn) (snd pn)))).
  - unfold nodes_entries. rewrite sum_zlen. reflexivity.
  - intros pn k H. apply node_size_ok. apply (weighted_nodes_in f); assumption.
Qed.
Lemma inner_len f : zlen (inner_entries dim S f) = 1 + zlen (nodes_entries dim S (left_cell S f) (Some (right_cell S f)) true f) + 3.
Proof. unfold inner_entries. cbv zeta. rewrite !zlen_app. unfold entry. rewrite !zlen_cons. change (zlen (@nil (Z * Z * option R))) with 0. lia. Qed.
Lemma halo_len f : zlen (halo_entries dim S f) = 2 + zlen (nodes_entries dim S (left_cell S f) None false f).
Proof. unfold halo_entries. cbv zeta. destruct (dim =? 2); rewrite zlen_app; unfold entry; rewrite !zlen_cons; change (zlen (@nil (Z * Z * option R))) with 0; lia. Qed.
Lemma dir_len f : zlen (dir_entries dim S f) = 2.
Proof. reflexivity. Qed.
Lemma all_len : zlen (all_entries dim S L) = zlen (flat_map (inner_entries dim S) (sl_inner L)) + zlen (flat_map (halo_entries dim S) (sl_halo L)) + zlen (flat_map (dir_entries dim S) (sl_dir L)).
Proof. unfold all_entries. rewrite !zlen_app. lia. Qed.
End Size.

Lemma size2_ok S L nf nhg : wf_lsys 2 S L nf nhg -> compute_2dmatrix_size S L = Ok (zlen (all_entries 2 S L) + zlen (sl_halo L)).
Proof.
  intros WF. unfold compute_2dmatrix_size.
  assert (HN : forall f, 0 <= f < zlen (fd_cellid (sy_G S)) -> get (fd_nodes (sy_G S)) f = Ok (map snd (weighted_nodes 2 S f))).
  { intros f Hf. destruct (face_nodes 2 S L nf nhg WF f Hf) as (E & _). rewrite E. f_equal. rewrite (nodes_two S L nf nhg WF f Hf) at 1. reflexivity. }
  rewrite (foldM_step (fun f => zlen (inner_entries 2 S f))).
  2: { intros f k Hf. destruct (wy_inner _ _ _ _ _ WF f Hf) as (Hf' & _). rewrite (HN f Hf'). cbn [bind]. rewrite (nodes_size_ok 2 S L nf nhg WF (or_introl eq_refl) (Some (right_cell S f)) true (left_cell S f) f _ Hf' : foldM (node_size S 2 true) _ _ = _). cbn [bind]. rewrite inner_len. f_equal. lia. }
  cbn [bind]. rewrite (foldM_step (fun f => zlen (halo_entries 2 S f) + 1)).
  2: { intros f k Hf. destruct (wy_halo _ _ _ _ _ WF f Hf) as (Hf' & _). rewrite (HN f Hf'). cbn [bind]. rewrite (nodes_size_ok 2 S L nf nhg WF (or_introl eq_refl) None false (left_cell S f) f _ Hf' : foldM (node_size S 1 false) _ _ = _). rewrite halo_len. f_equal. lia. }
  cbn [bind]. rewrite (foldM_step (fun f => zlen (dir_entries 2 S f))) by (intros; rewrite dir_len; f_equal; lia).
  rewrite sum_zlen_plus, !sum_zlen, all_len. f_equal. lia.
Qed.
Lemma size3_ok S L nf nhg : wf_lsys 3 S L nf nhg -> compute_3dmatrix_size S L = Ok (zlen (all_entries 3 S L)).
Proof.
  intros WF. unfold compute_3dmatrix_size. cbv zeta.
  assert (HN : forall f, 0 <= f < zlen (fd_cellid (sy_G S)) -> forall (A : Type) (k : list Z -> res A), (do ns <- (do n0 <- get2 (fd_nodes (sy_G S)) f 0; do n1 <- get2 (fd_nodes (sy_G S)) f 1; do n2 <- get2 (fd_nodes (sy_G S)) f 2; Ok [n0; n1; n2; n2]); k ns) = k (map snd (weighted_nodes 3 S f))).
  { intros f Hf A k. pose proof (nodes_three S L nf nhg WF f Hf) as HK. destruct (HK 0 ltac:(lia)) as (-> & _). destruct (HK 1 ltac:(lia)) as (-> & _). destruct (HK 2 ltac:(lia)) as (-> & _). reflexivity. }
  rewrite (foldM_step (fun f => zlen (inner_entries 3 S f))).
  2: { intros f k Hf. destruct (wy_inner _ _ _ _ _ WF f Hf) as (Hf' & _). rewrite (HN f Hf'). rewrite (nodes_size_ok 3 S L nf nhg WF (or_intror eq_refl) (Some (right_cell S f)) true (left_cell S f) f _ Hf' : foldM (node_size S 2 true) _ _ = _). cbn [bind]. rewrite inner_len. f_equal. lia. }
  cbn [bind]. rewrite (foldM_step (fun f => zlen (halo_entries 3 S f))).
  2: { intros f k Hf. destruct (wy_halo _ _ _ _ _ WF f Hf) as (Hf' & _). rewrite (HN f Hf'). rewrite (nodes_size_ok 3 S L nf nhg WF (or_intror eq_refl) None false (left_cell S f) f _ Hf' : foldM (node_size S 1 false) _ _ = _). rewrite halo_len. f_equal. lia. }
  cbn [bind]. rewrite (foldM_step (fun f => zlen (dir_entries 3 S f))) by (intros; rewrite dir_len; f_equal; lia).
  rewrite !sum_zlen, all_len. f_equal; lia.
Qed.
