(** * Proofs_part4: consequences of the main theorem used by Properties_part. *)
From Verif Require Import Py PyLemmas Model_part Model_comm Spec_part Proofs_part1 Proofs_part2 Proofs_part3 Proofs_comm.
From Coq Require Import ZifyBool Sorting.Sorted Permutation Reals.
Open Scope Z_scope.

Lemma readmesh_inv dim SIZE cells nodes ghost npart0 epart pa :
  wf_input dim SIZE cells nodes ghost npart0 epart ->
  metis_contract cells nodes npart0 epart ->
  readmesh_parallel dim SIZE cells nodes ghost npart0 epart = Ok pa ->
    pa_tc pa = concat (map (owned cells epart) (range SIZE)) /\
    zlen (pa_files pa) = SIZE /\
    (forall i, 0 <= i < SIZE -> file_ok dim cells nodes ghost epart i (file_of empty_file pa i)).
Proof.
  intros WF MC E. destruct (readmesh_parallel_ok _ _ _ _ _ _ _ WF MC) as (pa' & E' & H1 & H2 & H3 & _).
  rewrite E in E'; injection E' as <-. auto.
Qed.

Lemma c01 dim SIZE cells nodes ghost npart0 epart pa :
  wf_input dim SIZE cells nodes ghost npart0 epart ->
  metis_contract cells nodes npart0 epart ->
  readmesh_parallel dim SIZE cells nodes ghost npart0 epart = Ok pa ->
  forall i, 0 <= i < SIZE ->
    let l2g := rf_loctoglob (file_of empty_file pa i) in
    (forall c, is_cell cells c -> count_occ Z.eq_dec l2g c = if i =? owner epart c then 1%nat else 0%nat) /\
    (forall c, In c l2g -> is_cell cells c) /\ StronglySorted Z.lt l2g.
Proof.
  intros WF MC E i Hi. destruct (readmesh_inv _ _ _ _ _ _ _ _ WF MC E) as (_ & _ & H).
  cbn. rewrite (fo_l2g _ _ _ _ _ _ _ (H i Hi)). split; [|split].
  - intros c Hc. destruct (Z.eqb_spec i (owner epart c)) as [->|Hne].
    + assert (Hin : In c (owned cells epart (owner epart c))) by (apply owned_In; auto).
      apply (count_occ_In Z.eq_dec) in Hin.
      pose proof (proj1 (NoDup_count_occ Z.eq_dec _) (owned_NoDup cells epart (owner epart c)) c). lia.
    + apply count_occ_not_In. rewrite owned_In. intros (_ & Ho). congruence.
  - intros c Hc; apply owned_In in Hc; apply Hc.
  - apply owned_sorted.
Qed.

Lemma files_map {A} (g : rankfile -> A) (h : Z -> A) files SIZE :
  zlen files = SIZE -> (forall i, 0 <= i < SIZE -> g (nthZ empty_file files i) = h i) -> map g files = map h (range SIZE).
Proof.
  intros HL H. rewrite <- (map_nthZ_range empty_file files), HL, map_map. apply map_ext_in.
  intros i Hi; apply in_range in Hi; apply H; exact Hi.
Qed.

Lemma c02 dim SIZE cells nodes ghost npart0 epart pa :
  wf_input dim SIZE cells nodes ghost npart0 epart ->
  metis_contract cells nodes npart0 epart ->
  readmesh_parallel dim SIZE cells nodes ghost npart0 epart = Ok pa ->
  Permutation (pa_tc pa) (range (zlen cells)) /\
  pa_tc pa = concat (map rf_loctoglob (pa_files pa)).
Proof.
  intros WF MC E. destruct (readmesh_inv _ _ _ _ _ _ _ _ WF MC E) as (H1 & H2 & H3). rewrite H1. split.
  - eapply concat_owned_perm; eauto.
  - f_equal. symmetry. apply files_map; [exact H2|]. intros i Hi. apply (fo_l2g _ _ _ _ _ _ _ (H3 i Hi)).
Qed.

Lemma c03 dim SIZE cells nodes ghost npart0 epart pa :
  wf_input dim SIZE cells nodes ghost npart0 epart ->
  metis_contract cells nodes npart0 epart ->
  readmesh_parallel dim SIZE cells nodes ghost npart0 epart = Ok pa ->
  forall i, 0 <= i < SIZE ->
    let f := file_of empty_file pa i in
    NoDup (rf_nodeloctoglob f) /\
    (forall k, In k (rf_nodeloctoglob f) <->
       exists c, is_cell cells c /\ owner epart c = i /\ In k (nodes_of cells c)) /\
    Forall2 (fun c e => map (nthZ (-1) (rf_nodeloctoglob f)) e = nodes_of cells c /\
                        Forall (fun l => 0 <= l < zlen (rf_nodeloctoglob f)) e)
            (rf_loctoglob f) (rf_elements f) /\
    rf_nodes f = map (fun k => (coord nodes k, nthZ 0 ghost k)) (rf_nodeloctoglob f).
Proof.
  intros WF MC E i Hi. destruct (readmesh_inv _ _ _ _ _ _ _ _ WF MC E) as (_ & _ & H).
  destruct (H i Hi). cbn. auto.
Qed.

Lemma block_spec {A} (neigh : list Z) (B : Z -> list A) j :
  In j neigh -> block neigh (map (fun p => zlen (B p)) neigh) (concat (map B neigh)) j = B j.
Proof.
  induction neigh as [|p l IH]; cbn; [tauto|]. intros Hin.
  destruct (Z.eqb_spec p j) as [->|Hne].
  - apply firstn_app_exact. unfold zlen; lia.
  - rewrite skipn_app_exact by (unfold zlen; lia). apply IH. destruct Hin; [congruence | assumption].
Qed.

Lemma count_for_spec (neigh : list Z) (f : Z -> Z) j :
  In j neigh -> count_for neigh (map f neigh) j = f j.
Proof.
  induction neigh as [|p l IH]; cbn; [tauto|]. intros Hin.
  destruct (Z.eqb_spec p j) as [->|Hne]; [reflexivity|]. apply IH. destruct Hin; [congruence | assumption].
Qed.

Lemma c04 dim SIZE cells nodes ghost npart0 epart pa :
  wf_input dim SIZE cells nodes ghost npart0 epart ->
  metis_contract cells nodes npart0 epart ->
  readmesh_parallel dim SIZE cells nodes ghost npart0 epart = Ok pa ->
  forall i j, 0 <= i < SIZE -> 0 <= j < SIZE ->
    let f r := file_of empty_file pa r in
    let announced s r := count_for (rf_neigh (f s)) (rf_neighcount (f s)) r in
    In j (rf_neigh (f i)) ->
    block (rf_neigh (f i)) (rf_neighcount (f i)) (rf_halosint (f i)) j
    = map (hd 0) (block (rf_neigh (f j)) (map (fun s => announced s j) (rf_neigh (f j))) (rf_halosext (f j)) i)
    /\ block (rf_neigh (f i)) (rf_neighcount (f i)) (rf_halosint (f i)) j <> [].
Proof.
  intros WF MC E i j Hi Hj f ann Hin. destruct (readmesh_inv _ _ _ _ _ _ _ _ WF MC E) as (_ & HL & H).
  assert (FO : forall i, 0 <= i < SIZE -> file_ok dim cells nodes ghost epart i (nthZ empty_file (pa_files pa) i)) by exact H.
  pose proof (H i Hi) as Fi. pose proof (H j Hj) as Fj.
  assert (Hin' : In i (rf_neigh (f j))) by (eapply neigh_sym; eauto).
  assert (Hb : block (rf_neigh (f i)) (rf_neighcount (f i)) (rf_halosint (f i)) j = to_send cells epart i j).
  { unfold f. rewrite (fo_count _ _ _ _ _ _ _ Fi), (fo_halosint _ _ _ _ _ _ _ Fi). apply block_spec; exact Hin. }
  assert (Hann : map (fun s => ann s j) (rf_neigh (f j)) =
                 map (fun s => zlen (map (fun c => c :: nodes_of cells c) (to_send cells epart s j))) (rf_neigh (f j))).
  { apply map_ext_in. intros s Hs. unfold ann, f. assert (Hss : 0 <= s < SIZE) by (eapply neigh_size; eauto).
    rewrite (fo_count _ _ _ _ _ _ _ (H s Hss)), zlen_map. apply count_for_spec.
    eapply neigh_sym; eauto. }
  split.
  - rewrite Hann, Hb. unfold f at 3. rewrite (fo_halosext _ _ _ _ _ _ _ Fj).
    fold (f j). rewrite (block_spec (rf_neigh (f j)) (fun s => map (fun c => c :: nodes_of cells c) (to_send cells epart s j)) i Hin').
    rewrite map_map. cbn. rewrite map_id. reflexivity.
  - rewrite Hb. apply to_send_nonempty. apply (fo_neigh_in _ _ _ _ _ _ _ Fi); exact Hin.
Qed.

Lemma sorted_neigh_concat_NoDup cells epart i l :
  NoDup l -> NoDup (concat (map (fun j => to_send cells epart j i) l)).
Proof.
  induction 1 as [|j l Hj Hnd IH]; cbn; [constructor|].
  assert (Hs : NoDup (to_send cells epart j i)) by (apply sorted_lt_NoDup, sorted_lt_filter, Sorted_lt_range).
  assert (Hd : forall x, In x (to_send cells epart j i) -> In x (concat (map (fun j => to_send cells epart j i) l)) -> False).
  { intros x H1 H2. apply in_concat in H2 as (l' & Hl & Hx). apply in_map_iff in Hl as (j' & <- & Hj').
    apply to_send_cell in H1, Hx. assert (j = j') by (destruct H1, Hx; congruence). congruence. }
  revert Hs Hd. induction (to_send cells epart j i) as [|x s IHs]; intros Hs Hd; cbn; [exact IH|].
  inversion Hs; subst. constructor.
  - rewrite in_app_iff. intros [?|?]; [contradiction|]. apply (Hd x); [left; reflexivity | assumption].
  - apply IHs; [assumption|]. intros y Hy; apply Hd; right; exact Hy.
Qed.

Lemma c05 dim SIZE cells nodes ghost npart0 epart pa :
  wf_input dim SIZE cells nodes ghost npart0 epart ->
  metis_contract cells nodes npart0 epart ->
  readmesh_parallel dim SIZE cells nodes ghost npart0 epart = Ok pa ->
  forall i, 0 <= i < SIZE ->
    let hext := rf_halosext (file_of empty_file pa i) in
    (forall row, In row hext <-> exists c, row = c :: nodes_of cells c /\ is_cell cells c /\ owner epart c <> i /\
        exists c', is_cell cells c' /\ owner epart c' = i /\ share_node cells c c') /\
    NoDup (map (hd (-1)) hext) /\
    rf_centvol (file_of empty_file pa i) = map (fun r => cell_row dim nodes (tl r)) hext.
Proof.
  intros WF MC E i Hi. destruct (readmesh_inv _ _ _ _ _ _ _ _ WF MC E) as (_ & HL & H).
  pose proof (H i Hi) as Fi. cbn. split; [|split].
  - intros row. rewrite (fo_halosext _ _ _ _ _ _ _ Fi), in_concat. split.
    + intros (l & Hl & Hr). apply in_map_iff in Hl as (j & <- & Hj). apply in_map_iff in Hr as (c & <- & Hc).
      exists c. split; [reflexivity|]. unfold to_send in Hc. rewrite filter_In, in_range, andb_true_iff, Z.eqb_eq, touches_rank_spec in Hc.
      destruct Hc as (Hc & Ho & Ht). apply (fo_neigh_in _ _ _ _ _ _ _ Fi) in Hj as (Hne & _).
      split; [exact Hc|]. split; [congruence | exact Ht].
    + intros (c & -> & Hc & Hne & c' & Hc' & Ho' & Hs).
      exists (map (fun c => c :: nodes_of cells c) (to_send cells epart (owner epart c) i)). split.
      * apply in_map_iff. exists (owner epart c); split; [reflexivity|]. apply (fo_neigh_in _ _ _ _ _ _ _ Fi).
        split; [exact Hne|]. exists c', c. repeat (split; [assumption || reflexivity|]).
        destruct Hs as (k & A & B). exists k; auto.
      * apply in_map_iff. exists c; split; [reflexivity|]. unfold to_send.
        rewrite filter_In, in_range, andb_true_iff, Z.eqb_eq, touches_rank_spec. split; [exact Hc|]. split; [reflexivity|].
        exists c'; auto.
  - rewrite (fo_halosext _ _ _ _ _ _ _ Fi), concat_map, map_map.
    erewrite map_ext; [|intros j; rewrite map_map; cbn; rewrite map_id; reflexivity].
    apply sorted_neigh_concat_NoDup. apply sorted_lt_NoDup, (fo_neigh_sorted _ _ _ _ _ _ _ Fi).
  - apply (fo_centvol _ _ _ _ _ _ _ Fi).
Qed.

Lemma c06 dim SIZE cells nodes ghost npart0 epart pa :
  wf_input dim SIZE cells nodes ghost npart0 epart ->
  metis_contract cells nodes npart0 epart ->
  readmesh_parallel dim SIZE cells nodes ghost npart0 epart = Ok pa ->
  forall i, 0 <= i < SIZE ->
    let f r := file_of empty_file pa r in
    StronglySorted Z.lt (rf_neigh (f i)) /\
    ~ In i (rf_neigh (f i)) /\
    (forall j, In j (rf_neigh (f i)) -> 0 <= j < SIZE /\ In i (rf_neigh (f j))) /\
    (forall j, In j (rf_neigh (f i)) <-> j <> i /\ exists c c', is_cell cells c /\ is_cell cells c' /\
        owner epart c = i /\ owner epart c' = j /\ share_node cells c c') /\
    rf_neighcount (f i) = map (fun j => zlen (block (rf_neigh (f i)) (rf_neighcount (f i)) (rf_halosint (f i)) j)) (rf_neigh (f i)) /\
    zlen (rf_halosint (f i)) = fold_right Z.add 0 (rf_neighcount (f i)).
Proof.
  intros WF MC E i Hi f. destruct (readmesh_inv _ _ _ _ _ _ _ _ WF MC E) as (_ & HL & H).
  pose proof (H i Hi) as Fi.
  assert (FO : forall i, 0 <= i < SIZE -> file_ok dim cells nodes ghost epart i (nthZ empty_file (pa_files pa) i)) by exact H.
  split; [apply (fo_neigh_sorted _ _ _ _ _ _ _ Fi)|]. split; [|split; [|split; [|split]]].
  - intros Hin. apply (fo_neigh_in _ _ _ _ _ _ _ Fi) in Hin as (Hne & _). congruence.
  - intros j Hj. split; [eapply neigh_size; eauto | eapply neigh_sym; eauto].
  - intros j. apply (fo_neigh_in _ _ _ _ _ _ _ Fi).
  - unfold f. rewrite (fo_count _ _ _ _ _ _ _ Fi) at 1. apply map_ext_in. intros j Hj.
    rewrite (fo_count _ _ _ _ _ _ _ Fi), (fo_halosint _ _ _ _ _ _ _ Fi). rewrite (block_spec _ (to_send cells epart i)) by exact Hj. reflexivity.
  - unfold f. rewrite (fo_count _ _ _ _ _ _ _ Fi), (fo_halosint _ _ _ _ _ _ _ Fi). rewrite zlen_concat.
    induction (rf_neigh (file_of empty_file pa i)) as [|j l IH]; cbn; [reflexivity|]. rewrite IH; reflexivity.
Qed.

Lemma c42 (V : Type) (d : V) dim SIZE cells nodes ghost npart0 epart pa (w : list (list V)) :
  wf_input dim SIZE cells nodes ghost npart0 epart ->
  metis_contract cells nodes npart0 epart ->
  readmesh_parallel dim SIZE cells nodes ghost npart0 epart = Ok pa ->
  let f r := file_of empty_file pa r in
  zlen w = SIZE -> (forall r, 0 <= r < SIZE -> zlen (nthZ [] w r) = zlen (rf_loctoglob (f r))) ->
  exists comms halo, prepare_comm SIZE (pa_files pa) = Ok comms /\ update_halo_value SIZE comms w = Ok halo /\
    zlen halo = SIZE /\
    forall r, 0 <= r < SIZE ->
      zlen (nthZ [] halo r) = zlen (rf_halosext (f r)) /\
      forall k, 0 <= k < zlen (rf_halosext (f r)) ->
      let c := hd (-1) (nthZ [] (rf_halosext (f r)) k) in
      exists o l, 0 <= o < SIZE /\ o <> r /\ 0 <= l < zlen (rf_loctoglob (f o)) /\
                  nthZ (-1) (rf_loctoglob (f o)) l = c /\ nthZ d (nthZ [] halo r) k = nthZ d (nthZ [] w o) l.
Proof.
  intros WF MC E f Hw Hwl. destruct (readmesh_inv _ _ _ _ _ _ _ _ WF MC E) as (_ & HL & H).
  assert (FO : forall i, 0 <= i < SIZE -> file_ok dim cells nodes ghost epart i (nthZ empty_file (pa_files pa) i)) by exact H.
  pose proof (wf_size _ _ _ _ _ _ _ WF) as HS.
  exists (map (comm_of SIZE cells epart (pa_files pa)) (range SIZE)). eexists.
  split; [eapply prepare_comm_ok; eauto|]. split; [eapply update_halo_ok with (d := d); eauto|].
  split; [rewrite zlen_map, zlen_range; lia|]. intros r Hr.
  rewrite (nthZ_map _ 0) by (rewrite zlen_range; lia). rewrite nthZ_range by lia. rewrite zlen_map. split; [reflexivity|].
  intros k Hk c. pose proof (FO r Hr) as Fr.
  assert (Hin : In (nthZ [] (rf_halosext (f r)) k) (rf_halosext (f r))) by (apply nthZ_In; exact Hk).
  destruct (c05 _ _ _ _ _ _ _ _ WF MC E r Hr) as (Hc5 & _). apply Hc5 in Hin as (c0 & Ec & Hc & Hne & _).
  assert (c = c0) by (unfold c; rewrite Ec; reflexivity). clearbody c. subst c0.
  pose proof (wf_epart _ _ _ _ _ _ _ WF c Hc) as Ho.
  assert (Hin : In c (rf_loctoglob (f (owner epart c)))).
  { unfold f. rewrite (fo_l2g _ _ _ _ _ _ _ (H _ Ho)). apply owned_In; auto. }
  destruct (In_nthZ 0 _ _ Hin) as (l & Hl & Hlc). exists (owner epart c), l.
  split; [exact Ho|]. split; [exact Hne|]. split; [exact Hl|]. split; [etransitivity; [apply (nthZ_indep _ 0); exact Hl | exact Hlc]|].
  rewrite (nthZ_map _ []) by exact Hk. unfold f in Ec. unfold file_of in Ec. rewrite Ec. cbn [hd].
  eapply own_val_spec; eauto.
Qed.

Lemma c41 (V : Type) (d : V) dim SIZE cells nodes ghost npart0 epart pa (x buf : list V) :
  wf_input dim SIZE cells nodes ghost npart0 epart ->
  metis_contract cells nodes npart0 epart ->
  readmesh_parallel dim SIZE cells nodes ghost npart0 epart = Ok pa ->
  let f r := file_of empty_file pa r in
  zlen x = zlen cells -> zlen buf = zlen cells ->
  exists parts, solve_scatter x buf (pa_tc pa) (map (fun f => zlen (rf_loctoglob f)) (pa_files pa)) (zlen cells) = Ok parts /\
    zlen parts = SIZE /\
    forall r, 0 <= r < SIZE -> zlen (nthZ [] parts r) = zlen (rf_loctoglob (f r)) /\
      forall j, 0 <= j < zlen (rf_loctoglob (f r)) ->
        nthZ d (nthZ [] parts r) j = nthZ d x (nthZ (-1) (rf_loctoglob (f r)) j).
Proof.
  intros WF MC E f Hx Hb. destruct (readmesh_inv _ _ _ _ _ _ _ _ WF MC E) as (_ & HL & H).
  destruct (c02 _ _ _ _ _ _ _ _ WF MC E) as (Hp & Htc).
  unfold solve_scatter. rewrite (convert_solution_ok d).
  2: { unfold zlen at 2. rewrite (Permutation_length Hp). fold (zlen (range (zlen cells))). rewrite zlen_range; [reflexivity | apply zlen_nonneg]. }
  2: exact Hb.
  2: { intros t Ht. rewrite Hx. apply in_range. eapply Permutation_in; eauto. }
  cbn [bind]. eexists; split; [reflexivity|]. rewrite Htc, concat_map, map_map.
  assert (Es : map (fun f0 => zlen (rf_loctoglob f0)) (pa_files pa) = map zlen (map (fun x0 => map (nthZ d x) (rf_loctoglob x0)) (pa_files pa))).
  { rewrite map_map. apply map_ext; intros; rewrite zlen_map; reflexivity. }
  rewrite Es, scatterv_concat. split; [rewrite zlen_map; exact HL|]. intros r Hr.
  rewrite (nthZ_map _ empty_file) by lia. rewrite zlen_map. split; [reflexivity|]. intros j Hj.
  rewrite (nthZ_map _ (-1)) by exact Hj. reflexivity.
Qed.
