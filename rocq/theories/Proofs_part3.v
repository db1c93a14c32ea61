(** * Proofs_part3: readmesh (SIZE > 1), main correctness theorem. *)
From Verif Require Import Py PyLemmas Model_part Spec_part Proofs_part1 Proofs_part2.
From Coq Require Import ZifyBool Sorting.Sorted Permutation Reals Lra.
Open Scope Z_scope.

Lemma mapM_concat_map {X Y} (f : X -> res (list Y)) (g : X -> list Y) l :
  (forall x, In x l -> f x = Ok (g x)) -> mapM f l = Ok (map g l).
Proof. apply mapM_ok. Qed.

Lemma Forall2_len {A B} (R : A -> B -> Prop) l1 l2 : Forall2 R l1 l2 -> length l1 = length l2.
Proof. induction 1; cbn; congruence. Qed.

Section P3.
Variables (dim SIZE : Z) (cells : list (list Z)) (nodes : list pt) (ghost npart0 epart : list Z).
Hypothesis WF : wf_input dim SIZE cells nodes ghost npart0 epart.
Hypothesis MC : metis_contract cells nodes npart0 epart.

Local Notation row c := (nodes_of cells c).
Local Notation own c := (owner epart c).
Local Notation nc := (zlen cells).
Local Notation nn := (zlen nodes).

Lemma touched_dec k : (exists c, is_cell cells c /\ In k (row c)) \/ (forall c, is_cell cells c -> ~ In k (row c)).
Proof.
  destruct (existsb (fun c => mem k (row c)) (range nc)) eqn:E.
  - left. apply existsb_exists in E as (c & Hc & Hm). apply in_range in Hc. apply mem_In in Hm. exists c; auto.
  - right. intros c Hc Hk. assert (existsb (fun c => mem k (row c)) (range nc) = true); [|congruence].
    apply existsb_exists; exists c; split; [apply in_range; exact Hc | apply mem_In; exact Hk].
Qed.

Lemma create_ok : exists p, create_npart_cpart cells npart0 epart nn nc SIZE dim = Ok p /\
                            parts_ok SIZE cells nodes npart0 epart p.
Proof.
  eapply create_npart_cpart_spec; [exact WF|]. intros k Hk.
  destruct (touched_dec k) as [(c & Hc & Hin)|]; [left | right; assumption].
  destruct (MC c k Hc Hin) as (c' & Hc' & _ & ->). unfold in_size. eapply wf_epart; eauto.
Qed.

Variable p0 : parts.
Hypothesis PO : parts_ok SIZE cells nodes npart0 epart p0.

Lemma np_touch c k p : is_cell cells c -> In k (row c) ->
  (In p (nthZ [] (p_npart p0) k) <-> exists c', is_cell cells c' /\ In k (row c') /\ own c' = p).
Proof.
  intros Hc Hk. destruct (po_np _ _ _ _ _ _ PO) as (_ & Hn).
  destruct (Hn k) as (_ & Hin); [eapply wf_nodes; eauto|]. rewrite Hin. split.
  - intros [->|(c' & Hc' & H)]; [|exists c'; split; [exact Hc' | exact H]].
    destruct (MC c k Hc Hk) as (c' & H1 & H2 & ->). exists c'; auto.
  - intros (c' & Hc' & H). right; exists c'; split; [exact Hc' | exact H].
Qed.

Lemma two_elems {l : list Z} {a b} : In a l -> In b l -> a <> b -> 1 < zlen l.
Proof.
  destruct l as [|x [|y l]]; intros Ha Hb Hne; cbn [In] in Ha, Hb.
  - tauto.
  - exfalso; destruct Ha as [<-|[]], Hb as [<-|[]]; congruence.
  - rewrite !zlen_cons. pose proof (zlen_nonneg l); lia.
Qed.

Lemma touches_rank_spec c j :
  touches_rank cells epart c j = true <->
  exists c', is_cell cells c' /\ own c' = j /\ share_node cells c c'.
Proof.
  unfold touches_rank, share_node. rewrite existsb_exists. split.
  - intros (c' & Hc' & H). apply in_range in Hc'. apply andb_true_iff in H as (Ho & H).
    apply existsb_exists in H as (k & Hk & Hm). apply mem_In in Hm. apply Z.eqb_eq in Ho.
    exists c'; split; [exact Hc'|]. split; [exact Ho|]. exists k; auto.
  - intros (c' & Hc' & Ho & k & Hk & Hk'). exists c'; split; [apply in_range; exact Hc'|].
    apply andb_true_iff; split; [apply Z.eqb_eq; exact Ho|]. apply existsb_exists; exists k; split; [exact Hk | apply mem_In; exact Hk'].
Qed.

Lemma cpart_touch c q : is_cell cells c -> q <> own c ->
  (In q (nthZ [] (p_cpart p0) c) <-> exists c', is_cell cells c' /\ own c' = q /\ share_node cells c c').
Proof.
  intros Hc Hq. destruct (po_cpart _ _ _ _ _ _ PO) as (_ & Hp). destruct (Hp c Hc) as (_ & Hin).
  rewrite Hin. split.
  - intros [?|(k & Hk & Hn)]; [congruence|]. apply (np_touch c) in Hn as (c' & H1 & H2 & H3); auto.
    exists c'; split; [assumption|]. split; [assumption|]. exists k; auto.
  - intros (c' & H1 & H2 & k & Hk & Hk'). right; exists k; split; [assumption|]. apply (np_touch c); auto. exists c'; auto.
Qed.

Lemma sendl_eq i q : 0 <= i < SIZE -> q <> i -> sendl p0 i q = to_send cells epart i q.
Proof.
  intros Hi Hq. unfold sendl, to_send. destruct (Z.eqb_spec i q); [congruence|].
  apply filter_sorted_char.
  - apply sorted_lt_filter, np_unique_sorted.
  - intros c. rewrite filter_In. unfold phalo. rewrite np_unique_In.
    destruct (po_halo _ _ _ _ _ _ PO) as (_ & Hh). rewrite Hh by exact Hi. rewrite mem_In, andb_true_iff, Z.eqb_eq, touches_rank_spec.
    split.
    + intros ((Hc & Ho & Hm) & Hin). split; [exact Hc|]. split; [exact Ho|]. apply cpart_touch; auto. congruence.
    + intros (Hc & Ho & Ht). assert (Hcell : is_cell cells c) by exact Hc.
      split; [split; [exact Hcell|]; split; [exact Ho|]|].
      * destruct Ht as (c' & Hc' & Ho' & k & Hk & Hk'). exists k; split; [exact Hk|].
        eapply (two_elems (a := i) (b := q)); [| |congruence].
        -- apply (np_touch c); auto. exists c; auto.
        -- apply (np_touch c); auto. exists c'; auto.
      * apply cpart_touch; auto. congruence.
Qed.

Lemma pneigh_In i q : 0 <= i < SIZE -> (In q (pneigh p0 i) <-> q <> i /\ adjacent cells epart i q).
Proof.
  intros Hi. unfold pneigh. rewrite filter_In, np_unique_In.
  destruct (po_neigh _ _ _ _ _ _ PO) as (_ & Hn). rewrite Hn by exact Hi.
  rewrite negb_true_iff, Z.eqb_neq. split.
  - intros ((k & Hk & Hl & H1 & H2) & Hne). split; [exact Hne|].
    destruct (touched_dec k) as [(c & Hc & Hin)|Hno].
    + apply (np_touch c) in H1 as (c1 & A1 & A2 & A3); auto. apply (np_touch c) in H2 as (c2 & B1 & B2 & B3); auto.
      exists c1, c2. repeat (split; [assumption|]). exists k; auto.
    + exfalso. destruct (po_np _ _ _ _ _ _ PO) as (_ & Hnp). destruct (Hnp k Hk) as (_ & Hin).
      apply Hin in H1 as [->|(c & Hc & Hkc & _)]; [|eapply Hno; eauto].
      apply Hin in H2 as [->|(c & Hc & Hkc & _)]; [|eapply Hno; eauto]. congruence.
  - intros (Hne & c1 & c2 & A1 & A2 & A3 & A4 & k & A5 & A6). split; [|exact Hne].
    assert (In i (nthZ [] (p_npart p0) k)) by (apply (np_touch c1); auto; exists c1; auto).
    assert (In q (nthZ [] (p_npart p0) k)) by (apply (np_touch c1); auto; exists c2; auto).
    exists k. split; [eapply wf_nodes; eauto|]. split; [|split; assumption].
    apply (two_elems (a := i) (b := q)); auto.
Qed.

Lemma pneigh_in_size i q : 0 <= i < SIZE -> In q (pneigh p0 i) -> 0 <= q < SIZE /\ q <> i /\ adjacent cells epart i q.
Proof.
  intros Hi Hq. apply pneigh_In in Hq as (Hne & Ha); [|exact Hi]. split; [|auto].
  destruct Ha as (c & c' & _ & Hc' & _ & <- & _). eapply wf_epart; eauto.
Qed.

Lemma adjacent_sym i j : adjacent cells epart i j -> adjacent cells epart j i.
Proof. intros (c & c' & H1 & H2 & H3 & H4 & k & H5 & H6). exists c', c. repeat (split; [assumption|]). exists k; auto. Qed.

Lemma to_send_nonempty i j : adjacent cells epart i j -> to_send cells epart i j <> [].
Proof.
  intros (c & c' & H1 & H2 & H3 & H4 & Hs) E.
  assert (In c (to_send cells epart i j)); [|rewrite E in *; contradiction].
  unfold to_send. rewrite filter_In, in_range, andb_true_iff, Z.eqb_eq, touches_rank_spec.
  split; [exact H1|]. split; [exact H3|]. exists c'; auto.
Qed.

Lemma to_send_cell i j c : In c (to_send cells epart i j) -> is_cell cells c /\ own c = i.
Proof. unfold to_send. rewrite filter_In, in_range, andb_true_iff, Z.eqb_eq. unfold is_cell; tauto. Qed.

Lemma get_coord k : 0 <= k < nn -> get nodes k = Ok (coord nodes k).
Proof. intros; apply get_nthZ; assumption. Qed.

Lemma row_nth_get c j : is_cell cells c -> 0 <= j < dim + 1 ->
  get2 cells c j = Ok (nthZ 0 (row c) j) /\ 0 <= nthZ 0 (row c) j < nn.
Proof.
  intros Hc Hj. pose proof (wf_rows _ _ _ _ _ _ _ WF c Hc) as Hl. split.
  - unfold get2. rewrite (row_get cells c Hc). cbn [bind]. apply get_nthZ. lia.
  - eapply wf_nodes; [exact WF | exact Hc | apply nthZ_In; lia].
Qed.

Lemma cv_row c : is_cell cells c ->
  (if dim =? 2 then centvol2 cells nodes c else centvol3 cells nodes c) = Ok (cell_row dim nodes (row c)).
Proof.
  intros Hc. unfold cell_row. destruct (wf_dim _ _ _ _ _ _ _ WF) as [Hd|Hd]; rewrite Hd; cbn [Z.eqb Pos.eqb].
  - unfold centvol2, cell_row_2d.
    destruct (row_nth_get c 0 Hc) as (E0 & R0); [lia|]. destruct (row_nth_get c 1 Hc) as (E1 & R1); [lia|].
    destruct (row_nth_get c 2 Hc) as (E2 & R2); [lia|].
    rewrite E0, E1, E2; cbn [bind]. rewrite !get_coord by assumption. cbn [bind].
    do 2 f_equal; [lra|]. f_equal; [lra|]. f_equal. f_equal.
    rewrite Rmult_comm. unfold Rdiv. rewrite Rmult_1_l. do 2 f_equal. ring.
  - unfold centvol3, cell_row_3d.
    destruct (row_nth_get c 0 Hc) as (E0 & R0); [lia|]. destruct (row_nth_get c 1 Hc) as (E1 & R1); [lia|].
    destruct (row_nth_get c 2 Hc) as (E2 & R2); [lia|]. destruct (row_nth_get c 3 Hc) as (E3 & R3); [lia|].
    rewrite E0, E1, E2, E3; cbn [bind]. rewrite !get_coord by assumption. cbn [bind].
    do 2 f_equal; [lra|]. f_equal; [lra|]. f_equal; [lra|]. f_equal.
    rewrite Rmult_comm. unfold Rdiv. rewrite Rmult_1_l. do 2 f_equal. unfold det3, psub; cbn [px py pz]. ring.
Qed.

Lemma Forall2_map_r {A B C} (R : A -> C -> Prop) (f : B -> C) l1 l2 :
  Forall2 (fun a b => R a (f b)) l1 l2 -> Forall2 R l1 (map f l2).
Proof. induction 1; cbn; constructor; auto. Qed.

Lemma make_rankfile_ok gc gn ln hint hext i :
  0 <= i < SIZE ->
  (forall j, 0 <= j < zlen (owned cells epart i) -> dget gc (i, j) = Ok (nthZ 0 (owned cells epart i) j)) ->
  (forall j, 0 <= j < zlen (pnodes cells epart i) -> dget ln (i, j) = Ok (nthZ 0 (pnodes cells epart i) j)) ->
  (forall j, 0 <= j < zlen (pnodes cells epart i) -> dget gn (i, nthZ 0 (pnodes cells epart i) j) = Ok j) ->
  (forall i q, 0 <= i < SIZE -> dget_opt hint (i, q) = dopt (sendl p0 i q) /\ dget_opt hext (q, i) = dopt (sendl p0 i q)) ->
  exists f, make_rankfile dim cells nodes ghost (pfinal SIZE cells epart p0) gc gn ln hint hext i = Ok f /\
            file_ok dim cells nodes ghost epart i f.
Proof.
  intros Hi Hgc Hln Hgn Hh. unfold make_rankfile. cbn [p_cell_part p_node_part p_neighsub pfinal].
  rewrite !get_map_range by exact Hi. cbn [bind].
  set (pn := pnodes cells epart i) in *. set (ow := owned cells epart i) in *. set (ng := pneigh p0 i).
  (* elements *)
  destruct (mapM_exists (fun c => mapM (fun k => do n <- get2 cells c k; dget gn (i, n)) (range (dim + 1)))
     (fun c e => map (nthZ (-1) pn) e = row c /\ Forall (fun l => 0 <= l < zlen pn) e) ow) as (els & E1 & F1).
  { intros c Hc. apply owned_In in Hc as (Hc & Ho).
    erewrite (row_mapM _ _ _ _ _ _ _ WF (fun n => dget gn (i, n))) by exact Hc.
    destruct (mapM_exists (fun n => dget gn (i, n)) (fun n l => nthZ (-1) pn l = n /\ 0 <= l < zlen pn) (row c)) as (r & E & F).
    - intros n Hn. assert (Hin : In n pn) by (apply pnodes_In; exists c; auto).
      destruct (In_nthZ 0 pn n Hin) as (j & Hj & <-). exists j. split; [apply Hgn; exact Hj|].
      split; [apply nthZ_indep; exact Hj | exact Hj].
    - exists r; split; [exact E|]. clear -F. induction F as [|n l row' r (A & B) F (IH1 & IH2)]; cbn; [auto|].
      split; [rewrite A, IH1; reflexivity | constructor; assumption]. }
  rewrite E1; cbn [bind].
  rewrite (mapM_ok _ (fun k => (coord nodes k, nthZ 0 ghost k))).
  2: { intros k Hk. apply pnodes_In in Hk as (c & Hc & _ & Hk).
       assert (Hr : 0 <= k < nn) by (eapply wf_nodes; eauto).
       rewrite get_coord by exact Hr. cbn [bind].
       rewrite (get_nthZ 0) by (rewrite (wf_ghost_len _ _ _ _ _ _ _ WF); exact Hr). reflexivity. }
  cbn [bind].
  assert (Hdi : forall j, In j ng -> dget hint (i, j) = Ok (to_send cells epart i j)).
  { intros j Hj. apply pneigh_in_size in Hj as (Hr & Hne & Ha); [|exact Hi].
    unfold dget. rewrite (proj1 (Hh i j Hi)), sendl_eq by auto.
    pose proof (to_send_nonempty _ _ Ha). destruct (to_send cells epart i j); [congruence | reflexivity]. }
  assert (Hde : forall j, In j ng -> dget hext (i, j) = Ok (to_send cells epart j i)).
  { intros j Hj. apply pneigh_in_size in Hj as (Hr & Hne & Ha); [|exact Hi].
    unfold dget. rewrite (proj2 (Hh j i Hr)), sendl_eq by auto.
    pose proof (to_send_nonempty _ _ (adjacent_sym _ _ Ha)). destruct (to_send cells epart j i); [congruence | reflexivity]. }
  rewrite (mapM_ok _ (to_send cells epart i)) by exact Hdi. cbn [bind].
  rewrite (mapM_ok _ (fun j => map (fun c => c :: row c) (to_send cells epart j i))).
  2: { intros j Hj. rewrite Hde by exact Hj. cbn [bind]. apply mapM_ok. intros c Hc.
       apply to_send_cell in Hc as (Hc & _).
       assert (Em : mapM (fun m => get2 cells c m) (range (dim + 1)) = Ok (row c)); [|rewrite Em; reflexivity].
       rewrite <- (mapM_range_get_id (row c) (dim + 1)) by (symmetry; eapply wf_rows; eauto).
       apply mapM_ext; intros m _. unfold get2. rewrite row_get by exact Hc. reflexivity. }
  cbn [bind].
  assert (Ecv : make_centvol dim cells nodes hext i ng =
     Ok (concat (map (fun j => map (fun c => cell_row dim nodes (row c)) (to_send cells epart j i)) ng))).
  { unfold make_centvol. rewrite (mapM_ok _ (fun j => map (fun c => cell_row dim nodes (row c)) (to_send cells epart j i))); [reflexivity|].
    intros j Hj. rewrite Hde by exact Hj. cbn [bind]. apply mapM_ok. intros c Hc.
    apply to_send_cell in Hc as (Hc & _). apply cv_row; exact Hc. }
  rewrite Ecv; cbn [bind].
  assert (El2g : mapM (fun j => dget gc (i, j)) (range (zlen ow)) = Ok ow).
  { rewrite (mapM_ok _ (nthZ 0 ow)); [rewrite map_nthZ_range; reflexivity|].
    intros j Hj; apply in_range in Hj; apply Hgc; exact Hj. }
  rewrite El2g; cbn [bind].
  assert (Enl2g : mapM (fun j => dget ln (i, j)) (range (zlen pn)) = Ok pn).
  { rewrite (mapM_ok _ (nthZ 0 pn)); [rewrite map_nthZ_range; reflexivity|].
    intros j Hj; apply in_range in Hj; apply Hln; exact Hj. }
  rewrite Enl2g; cbn [bind].
  rewrite (mapM_ok _ (fun j => zlen (to_send cells epart i j))).
  2: { intros j Hj. rewrite Hdi by exact Hj. reflexivity. }
  cbn [bind]. eexists; split; [reflexivity|]. constructor; cbn [rf_elements rf_nodes rf_halosint rf_halosext rf_centvol
    rf_loctoglob rf_nodeloctoglob rf_neigh rf_neighcount]; try reflexivity.
  - apply unique_func_NoDup.
  - intros k; apply pnodes_In.
  - exact F1.
  - apply sorted_lt_filter, np_unique_sorted.
  - intros j; apply pneigh_In; exact Hi.
  - rewrite concat_map, map_map. f_equal. apply map_ext. intros j. rewrite map_map. reflexivity.
Qed.
End P3.

Theorem readmesh_parallel_ok dim SIZE cells nodes ghost npart0 epart :
  wf_input dim SIZE cells nodes ghost npart0 epart ->
  metis_contract cells nodes npart0 epart ->
  exists pa, readmesh_parallel dim SIZE cells nodes ghost npart0 epart = Ok pa /\
    pa_tc pa = concat (map (owned cells epart) (range SIZE)) /\
    zlen (pa_files pa) = SIZE /\
    (forall i, 0 <= i < SIZE -> file_ok dim cells nodes ghost epart i (file_of empty_file pa i)) /\
    zlen (pa_nparts pa) = zlen nodes /\
    (forall k c, is_cell cells c -> In k (nodes_of cells c) -> NoDup (nthZ [] (pa_nparts pa) k) /\
       forall p, In p (nthZ [] (pa_nparts pa) k) <-> exists c', is_cell cells c' /\ In k (nodes_of cells c') /\ owner epart c' = p).
Proof.
  intros WF MC. unfold readmesh_parallel.
  destruct (create_ok _ _ _ _ _ _ _ WF MC) as (p0 & E0 & PO). rewrite E0; cbn [bind].
  rewrite (uniq_parts_eq _ _ _ _ _ _ PO); cbn [bind].
  destruct (loc_dicts_eq _ _ _ _ _ _ _ WF p0) as (gc & gn & ln & E1 & Hd). rewrite E1; cbn [bind].
  rewrite (make_tc_eq _ _ _ _ _ _ _ WF p0); cbn [bind].
  destruct (halo_dicts_eq _ _ _ _ _ _ _ WF p0 PO) as (hint & hext & E2 & Hh). rewrite E2; cbn [bind].
  destruct (mapM_exists (make_rankfile dim cells nodes ghost (pfinal SIZE cells epart p0) gc gn ln hint hext)
     (fun i f => file_ok dim cells nodes ghost epart i f) (range SIZE)) as (files & E3 & F).
  { intros i Hi; apply in_range in Hi. destruct (Hd i Hi) as (A & B & C).
    eapply make_rankfile_ok; eauto. }
  rewrite E3; cbn [bind]. eexists; split; [reflexivity|]. cbn [pa_tc pa_files pa_nparts].
  assert (HL : zlen files = SIZE).
  { pose proof (Forall2_len _ _ _ F) as Hl. unfold zlen. rewrite <- Hl. fold (zlen (range SIZE)).
    apply zlen_range. pose proof (wf_size _ _ _ _ _ _ _ WF); lia. }
  split; [reflexivity|]. split; [exact HL|]. split; [|split].
  - intros i Hi. unfold file_of; cbn [pa_files].
    assert (G : forall l r, Forall2 (fun i f => file_ok dim cells nodes ghost epart i f) l r ->
       forall n, (n < length l)%nat -> file_ok dim cells nodes ghost epart (nth n l 0) (nth n r empty_file)).
    { clear. induction 1; intros n Hn; cbn in *; [lia|]. destruct n; [assumption|]. apply IHForall2; lia. }
    specialize (G _ _ F (Z.to_nat i)). unfold nthZ.
    assert (Hr : nth (Z.to_nat i) (range SIZE) 0 = i) by (apply (nthZ_range 0 SIZE i Hi)).
    rewrite Hr in G. apply G. pose proof (zlen_range SIZE ltac:(lia)). unfold zlen in *. lia.
  - apply (po_np _ _ _ _ _ _ PO).
  - intros k c Hc Hk. split.
    + apply (po_np _ _ _ _ _ _ PO). eapply wf_nodes; eauto.
    + intros p. exact (np_touch _ _ _ _ _ _ _ WF MC p0 PO c k p Hc Hk).
Qed.
