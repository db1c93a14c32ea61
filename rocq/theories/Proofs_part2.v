(** * Proofs_part2: readmesh (SIZE > 1) produces the intended files. *)
From Verif Require Import Py PyLemmas Model_part Spec_part Proofs_part1.
From Coq Require Import ZifyBool Sorting.Sorted Permutation Reals.
Open Scope Z_scope.

(** ** generic *)
Lemma mapM_exists {X Y} (f : X -> res Y) (P : X -> Y -> Prop) l :
  (forall x, In x l -> exists y, f x = Ok y /\ P x y) ->
  exists r, mapM f l = Ok r /\ Forall2 P l r.
Proof.
  induction l as [|x l IH]; intros H; cbn.
  - exists []; split; [reflexivity | constructor].
  - destruct (H x (or_introl eq_refl)) as (y & E & Py0). rewrite E; cbn.
    destruct IH as (r & E' & F); [intros; apply H; right; assumption|].
    rewrite E'; cbn. eexists; split; [reflexivity | constructor; assumption].
Qed.

Lemma Forall2_eq_map {X Y} (g : X -> Y) l r : Forall2 (fun x y => y = g x) l r -> r = map g l.
Proof. induction 1; cbn; congruence. Qed.

Lemma unique_func_acc l acc :
  NoDup acc ->
  NoDup (fold_left (fun acc x => if mem x acc then acc else acc ++ [x]) l acc) /\
  (forall x, In x (fold_left (fun acc x => if mem x acc then acc else acc ++ [x]) l acc) <-> In x acc \/ In x l).
Proof.
  revert acc; induction l as [|y l IH]; intros acc Hnd; cbn.
  - split; [assumption | tauto].
  - destruct (mem_spec y acc) as [Hm|Hm].
    + destruct (IH acc Hnd) as (H1 & H2). split; [assumption|]. intros x; rewrite H2.
      intuition (subst; auto).
    + destruct (IH (acc ++ [y])) as (H1 & H2).
      { apply (Permutation_NoDup (l := y :: acc)); [apply Permutation_cons_append | constructor; assumption]. }
      split; [assumption|]. intros x; rewrite H2, in_app_iff. cbn; tauto.
Qed.
Lemma unique_func_NoDup l : NoDup (unique_func l).
Proof. apply unique_func_acc; constructor. Qed.
Lemma unique_func_In x l : In x (unique_func l) <-> In x l.
Proof. unfold unique_func. rewrite (proj2 (unique_func_acc l [] (NoDup_nil _))). cbn; tauto. Qed.

Lemma filter_sorted_char (f : Z -> bool) n l :
  StronglySorted Z.lt l -> (forall c, In c l <-> 0 <= c < n /\ f c = true) -> l = filter f (range n).
Proof.
  intros Hs H. apply sorted_lt_unique; [assumption | apply sorted_lt_filter, Sorted_lt_range|].
  intros x; rewrite H, filter_In, in_range; tauto.
Qed.

Definition dopt {A} (l : list A) : option (list A) := match l with [] => None | _ => Some l end.
Lemma dopt_app {A} (l : list A) x : dopt (l ++ [x]) = Some (l ++ [x]).
Proof. destruct l; reflexivity. Qed.
Lemma dappend_dopt {A} (d : dict2 (list A)) (F : key2 -> list A) k x :
  (forall k', dget_opt d k' = dopt (F k')) ->
  forall k', dget_opt (dappend d k x) k' = dopt (F k' ++ if key2_eqb k k' then [x] else []).
Proof.
  intros H k'. rewrite dget_opt_dappend_Some. unfold dlist. rewrite !H.
  destruct (key2_eqb k k'); [|rewrite app_nil_r; reflexivity].
  rewrite dopt_app. destruct (F k'); reflexivity.
Qed.

(** ** the partition of the cells *)
Section P2.
Variables (dim SIZE : Z) (cells : list (list Z)) (nodes : list pt) (ghost npart0 epart : list Z).
Hypothesis WF : wf_input dim SIZE cells nodes ghost npart0 epart.

Local Notation row c := (nodes_of cells c).
Local Notation own c := (owner epart c).
Local Notation nc := (zlen cells).
Local Notation nn := (zlen nodes).
Local Notation ownd i := (owned cells epart i).

Lemma owned_In i c : In c (ownd i) <-> is_cell cells c /\ own c = i.
Proof. unfold owned. rewrite filter_In, in_range, Z.eqb_eq. reflexivity. Qed.
Lemma owned_sorted i : StronglySorted Z.lt (ownd i).
Proof. apply sorted_lt_filter, Sorted_lt_range. Qed.

Lemma concat_owned_NoDup n : 0 <= n -> NoDup (concat (map (owned cells epart) (range n))).
Proof.
  revert n. apply natlike_ind.
  - constructor.
  - intros n Hn IH. unfold Z.succ. rewrite range_succ by assumption. rewrite map_app, concat_app. cbn. rewrite app_nil_r.
    assert (Hd : forall x, In x (concat (map (owned cells epart) (range n))) -> In x (ownd n) -> False).
    { intros x H1 H2. apply in_concat in H1 as (l & Hl & Hx). apply in_map_iff in Hl as (i & <- & Hi).
      apply in_range in Hi. apply owned_In in Hx, H2. lia. }
    revert IH Hd. generalize (concat (map (owned cells epart) (range n))) as l1. intros l1 IH Hd.
    induction l1 as [|x l1 IHl]; cbn; [apply sorted_lt_NoDup, owned_sorted|].
    inversion IH; subst. constructor.
    + rewrite in_app_iff. intros [?|?]; [contradiction | apply (Hd x); [left; reflexivity | assumption]].
    + apply IHl; [assumption|]. intros y Hy; apply Hd; right; assumption.
Qed.

Lemma concat_owned_perm : Permutation (concat (map (owned cells epart) (range SIZE))) (range nc).
Proof.
  apply NoDup_Permutation.
  - apply concat_owned_NoDup. pose proof (wf_size _ _ _ _ _ _ _ WF); lia.
  - apply NoDup_range.
  - intros x; rewrite in_concat, in_range. split.
    + intros (l & Hl & Hx). apply in_map_iff in Hl as (i & <- & Hi). apply owned_In in Hx. apply Hx.
    + intros Hx. exists (ownd (own x)). split.
      * apply in_map_iff. exists (own x); split; [reflexivity|]. apply in_range.
        apply (wf_epart _ _ _ _ _ _ _ WF); exact Hx.
      * apply owned_In; split; [exact Hx | reflexivity].
Qed.

(** ** uniq_parts *)
Variable p0 : parts.
Hypothesis PO : parts_ok SIZE cells nodes npart0 epart p0.

Definition pnodes i := unique_func (concat (map (nodes_of cells) (ownd i))).
Definition pneigh i := filter (fun q => negb (q =? i)) (np_unique (nthZ [] (p_neighsub p0) i)).
Definition phalo i := np_unique (nthZ [] (p_halo p0) i).
Definition pfinal : parts :=
  {| p_npart := p_npart p0; p_cpart := p_cpart p0; p_neighsub := map pneigh (range SIZE);
     p_node_part := map pnodes (range SIZE); p_cell_part := map (owned cells epart) (range SIZE);
     p_halo := map phalo (range SIZE) |}.

Lemma uniq_parts_eq : uniq_parts SIZE p0 = Ok pfinal.
Proof.
  destruct PO as [[Hn1 Hn2] [Hd1 Hd2] [Hc1 Hc2] [Hp1 Hp2] [Hs1 Hs2] [Hh1 Hh2]].
  unfold uniq_parts.
  rewrite (mapM_ok _ pneigh).
  2: { intros i Hi; apply in_range in Hi. rewrite (get_nthZ []) by lia. reflexivity. }
  cbn [bind]. rewrite (mapM_ok _ (owned cells epart)).
  2: { intros i Hi; apply in_range in Hi. rewrite (get_nthZ []) by lia. cbn.
       rewrite Hc2 by lia. rewrite np_unique_of_sorted by (apply owned_sorted). reflexivity. }
  cbn [bind]. rewrite (mapM_ok _ pnodes).
  2: { intros i Hi; apply in_range in Hi. rewrite (get_nthZ []) by lia. cbn.
       rewrite Hd2 by lia. reflexivity. }
  cbn [bind]. rewrite (mapM_ok _ phalo).
  2: { intros i Hi; apply in_range in Hi. rewrite (get_nthZ []) by lia. reflexivity. }
  reflexivity.
Qed.

Lemma get_map_range {A} (f : Z -> A) i : 0 <= i < SIZE -> get (map f (range SIZE)) i = Ok (f i).
Proof.
  intros Hi. assert (Hz : zlen (range SIZE) = SIZE) by (apply zlen_range; lia).
  rewrite (get_nthZ (f 0)) by (rewrite zlen_map, Hz; lia).
  rewrite (nthZ_map _ 0) by (rewrite Hz; lia). rewrite nthZ_range by lia. reflexivity.
Qed.

Lemma pnodes_In i k : In k (pnodes i) <-> exists c, is_cell cells c /\ own c = i /\ In k (row c).
Proof.
  unfold pnodes. rewrite unique_func_In, in_concat. split.
  - intros (l & Hl & Hk). apply in_map_iff in Hl as (c & <- & Hc). apply owned_In in Hc. exists c; tauto.
  - intros (c & Hc & Ho & Hk). exists (row c); split; [|assumption]. apply in_map, owned_In; tauto.
Qed.

(** ** dictionaries *)
Lemma loc_dicts_eq : exists gc gn ln, loc_dicts SIZE pfinal = Ok (gc, gn, ln) /\
  forall i, 0 <= i < SIZE ->
    (forall j, 0 <= j < zlen (ownd i) -> dget gc (i, j) = Ok (nthZ 0 (ownd i) j)) /\
    (forall j, 0 <= j < zlen (pnodes i) -> dget ln (i, j) = Ok (nthZ 0 (pnodes i) j)) /\
    (forall j, 0 <= j < zlen (pnodes i) -> dget gn (i, nthZ 0 (pnodes i) j) = Ok j).
Proof.
  unfold loc_dicts.
  edestruct (foldM_range_inv (fun n (s : dict2 Z * dict2 Z * dict2 Z) => let '(gc, gn, ln) := s in
    forall i, 0 <= i < n ->
    (forall j, 0 <= j < zlen (ownd i) -> dget gc (i, j) = Ok (nthZ 0 (ownd i) j)) /\
    (forall j, 0 <= j < zlen (pnodes i) -> dget ln (i, j) = Ok (nthZ 0 (pnodes i) j)) /\
    (forall j, 0 <= j < zlen (pnodes i) -> dget gn (i, nthZ 0 (pnodes i) j) = Ok j))) as (((gc & gn) & ln) & E & H).
  4: { exists gc, gn, ln; split; [exact E | exact H]. }
  - pose proof (wf_size _ _ _ _ _ _ _ WF); lia.
  - intros i Hi; lia.
  - intros i ((gc & gn) & ln) Hi H. cbn [p_cell_part p_node_part pfinal].
    rewrite get_map_range by lia. cbn [bind].
    edestruct (foldM_range_inv (fun m (g : dict2 Z) =>
       (forall j, 0 <= j < m -> dget g (i, j) = Ok (nthZ 0 (ownd i) j)) /\
       (forall i' j, i' <> i -> dget g (i', j) = dget gc (i', j)))
      (fun gc j => do c <- get (ownd i) j; ret (dset gc (i, j) c)) (zlen (ownd i)) gc) as (gc' & E1 & G1 & G2).
    + apply zlen_nonneg.
    + split; [intros; lia | reflexivity].
    + intros j g Hj (G1 & G2). rewrite (get_nthZ 0) by lia. cbn [bind]. eexists; split; [reflexivity|].
      unfold dget in *. split.
      * intros j' Hj'. rewrite dget_opt_dset. destruct (key2_eqb_spec (i, j) (i, j')) as [[= ->]|Hne]; [reflexivity|].
        apply G1. assert (j <> j') by congruence. lia.
      * intros i' j' Hne. rewrite dget_opt_dset. destruct (key2_eqb_spec (i, j) (i', j')); [congruence|]. apply G2; assumption.
    + rewrite E1. cbn [bind]. rewrite get_map_range by lia. cbn [bind].
      edestruct (foldM_range_inv (fun m (s : dict2 Z * dict2 Z) => let '(gn', ln') := s in
       (forall j, 0 <= j < m -> dget ln' (i, j) = Ok (nthZ 0 (pnodes i) j)) /\
       (forall j, 0 <= j < m -> dget gn' (i, nthZ 0 (pnodes i) j) = Ok j) /\
       (forall i' j, i' <> i -> dget ln' (i', j) = dget ln (i', j)) /\
       (forall i' j, i' <> i -> dget gn' (i', j) = dget gn (i', j)))
       (fun '(gn, ln) j => do n <- get (pnodes i) j; ret (dset gn (i, n) j, dset ln (i, j) n))
       (zlen (pnodes i)) (gn, ln)) as ((gn' & ln') & E2 & K1 & K2 & K3 & K4).
      * apply zlen_nonneg.
      * split; [intros; lia|]. split; [intros; lia|]. split; reflexivity.
      * intros j (a & b) Hj (K1 & K2 & K3 & K4). rewrite (get_nthZ 0) by lia. cbn [bind].
        eexists; split; [reflexivity|]. unfold dget in *. repeat split.
        -- intros j' Hj'. rewrite dget_opt_dset. destruct (key2_eqb_spec (i, j) (i, j')) as [[= ->]|Hne]; [reflexivity|].
           apply K1. assert (j <> j') by congruence. lia.
        -- intros j' Hj'. rewrite dget_opt_dset.
           destruct (key2_eqb_spec (i, nthZ 0 (pnodes i) j) (i, nthZ 0 (pnodes i) j')) as [[= He]|Hne].
           ++ f_equal. unfold nthZ, zlen in *.
              pose proof (proj1 (NoDup_nth (pnodes i) 0) (unique_func_NoDup _) (Z.to_nat j) (Z.to_nat j')) as Hinj.
              assert (Z.to_nat j = Z.to_nat j') by (apply Hinj; [lia | lia | exact He]). lia.
           ++ apply K2. assert (j <> j') by (intros ->; congruence). lia.
        -- intros i' j' Hne. rewrite dget_opt_dset. destruct (key2_eqb_spec (i, j) (i', j')); [congruence|]. apply K3; assumption.
        -- intros i' j' Hne. rewrite dget_opt_dset. destruct (key2_eqb_spec (i, nthZ 0 (pnodes i) j) (i', j')); [congruence|]. apply K4; assumption.
      * rewrite E2. cbn [bind]. eexists; split; [reflexivity|]. intros i' Hi'.
        destruct (Z.eq_dec i' i) as [->|Hne]; [split; [|split]; assumption|].
        destruct (H i') as (A & B & C); [lia|]. split; [|split].
        -- intros; rewrite G2 by assumption; auto.
        -- intros; rewrite K3 by assumption; auto.
        -- intros; rewrite K4 by assumption; auto.
Qed.

(** ** GtoL *)
Lemma upd_app_mid {A} (done : list A) x v rest : upd (done ++ x :: rest) (zlen done) v = done ++ v :: rest.
Proof.
  unfold upd, zlen. rewrite Nat2Z.id. induction done as [|y done IH]; cbn; [reflexivity | rewrite IH; reflexivity].
Qed.

Lemma fill_tc l done m :
  zlen l <= Z.of_nat m ->
  foldM (fun '(cmpt, tc) c => do tc' <- set tc cmpt c; ret (cmpt + 1, tc')) l (zlen done, done ++ repeat 0 m)
  = Ok (zlen (done ++ l), (done ++ l) ++ repeat 0 (m - length l)).
Proof.
  revert done m; induction l as [|c l IH]; intros done m Hm; cbn [foldM].
  - rewrite app_nil_r. cbn. rewrite Nat.sub_0_r. reflexivity.
  - rewrite zlen_cons in Hm. pose proof (zlen_nonneg l). destruct m as [|m]; [lia|].
    rewrite set_upd.
    2: { rewrite zlen_app, zlen_repeat; pose proof (zlen_nonneg done); lia. }
    cbn [bind repeat]. rewrite upd_app_mid.
    replace (zlen done + 1) with (zlen (done ++ [c])) by (rewrite zlen_app, zlen_cons, zlen_nil; lia).
    replace (done ++ c :: repeat 0 m) with ((done ++ [c]) ++ repeat 0 m) by (rewrite <- app_assoc; reflexivity).
    rewrite IH by lia. rewrite <- app_assoc. reflexivity.
Qed.

Lemma make_tc_eq : make_tc SIZE nc pfinal = Ok (concat (map (owned cells epart) (range SIZE))).
Proof.
  unfold make_tc.
  assert (Hz : map (fun _ => 0) (range nc) = repeat 0 (length cells)).
  { unfold range, zlen. rewrite Nat2Z.id, map_map. generalize (length cells) as n. generalize 0%nat as s.
    intros s n; revert s; induction n as [|n IH]; intros s; cbn; [reflexivity|]. rewrite IH; reflexivity. }
  rewrite Hz.
  assert (HT : zlen (concat (map (owned cells epart) (range SIZE))) = nc).
  { unfold zlen. rewrite (Permutation_length concat_owned_perm). fold (zlen (range nc)).
    apply zlen_range, zlen_nonneg. }
  assert (Hmono : forall n, 0 <= n <= SIZE -> zlen (concat (map (owned cells epart) (range n))) <= nc).
  { intros n Hn. rewrite <- HT. replace SIZE with (n + (SIZE - n)) by lia.
    assert (Hs : range (n + (SIZE - n)) = range n ++ map (fun k => n + k) (range (SIZE - n))).
    { unfold range. rewrite Z2Nat.inj_add by lia. rewrite seq_app, map_app. f_equal.
      rewrite map_map. cbn. replace (Z.to_nat n) with (Z.to_nat n + 0)%nat at 1 by lia.
      generalize (Z.to_nat (SIZE - n)) as m. generalize 0%nat as st. intros st m; revert st.
      induction m as [|m IHm]; intros st; cbn; [reflexivity|]. f_equal; [lia|].
      rewrite <- IHm. f_equal. f_equal. lia. }
    rewrite Hs, map_app, concat_app, zlen_app. pose proof (zlen_nonneg (concat (map (owned cells epart) (map (fun k => n + k) (range (SIZE - n)))))). lia. }
  edestruct (foldM_range_inv (fun n (s : Z * list Z) =>
     let d := concat (map (owned cells epart) (range n)) in
     s = (zlen d, d ++ repeat 0 (length cells - length d)))) as (s & E & H).
  4: { cbn [bind] in *. rewrite E. cbn in H. rewrite H. cbn.
       replace (length cells - _)%nat with 0%nat by (unfold zlen in HT; lia). cbn. rewrite app_nil_r. reflexivity. }
  - pose proof (wf_size _ _ _ _ _ _ _ WF); lia.
  - cbn. rewrite Nat.sub_0_r. reflexivity.
  - intros i s Hi ->. cbn [p_cell_part pfinal]. rewrite get_map_range by lia. cbn [bind].
    pose proof (Hmono (i + 1) ltac:(lia)) as Hm1.
    rewrite range_succ in * by lia. rewrite map_app, concat_app in *. cbn [map concat] in *. rewrite app_nil_r in *.
    set (d := concat (map (owned cells epart) (range i))) in *. rewrite zlen_app in Hm1.
    pose proof (zlen_nonneg d). pose proof (zlen_nonneg (ownd i)).
    rewrite fill_tc by (unfold zlen in *; lia).
    eexists; split; [reflexivity|]. cbn. do 3 f_equal. rewrite app_length. lia.
Qed.

(** ** haloint / haloext *)
Definition sendl i q : list Z :=
  if i =? q then [] else filter (fun c => mem q (nthZ [] (p_cpart p0) c)) (phalo i).

Lemma halo_cells i c : 0 <= i < SIZE -> In c (phalo i) -> is_cell cells c /\ own c = i.
Proof.
  intros Hi Hc. unfold phalo in Hc. rewrite np_unique_In in Hc.
  destruct (po_halo _ _ _ _ _ _ PO) as (_ & Hh). apply Hh in Hc; [|exact Hi]. tauto.
Qed.

Lemma halo_dicts_eq : exists hint hext, halo_dicts SIZE pfinal = Ok (hint, hext) /\
  forall i q, 0 <= i < SIZE -> dget_opt hint (i, q) = dopt (sendl i q) /\ dget_opt hext (q, i) = dopt (sendl i q).
Proof.
  unfold halo_dicts.
  edestruct (foldM_range_inv (fun n (s : dict2 (list Z) * dict2 (list Z)) => let '(hi, he) := s in
    (forall k, dget_opt hi k = dopt (if (0 <=? fst k) && (fst k <? n) then sendl (fst k) (snd k) else [])) /\
    (forall k, dget_opt he k = dopt (if (0 <=? snd k) && (snd k <? n) then sendl (snd k) (fst k) else [])))) as ((hi & he) & E & H1 & H2).
  4: { exists hi, he; split; [exact E|]. intros i q Hi. rewrite H1, H2. cbn [fst snd].
       destruct (Z.leb_spec 0 i); [|lia]. destruct (Z.ltb_spec i SIZE); [|lia]. split; reflexivity. }
  - pose proof (wf_size _ _ _ _ _ _ _ WF); lia.
  - split; intros k; (match goal with |- context [if ?b then _ else _] => assert (b = false) as -> by lia end); reflexivity.
  - intros i (hi & he) Hi (H1 & H2). cbn [p_halo p_cpart pfinal]. rewrite get_map_range by lia. cbn [bind].
    edestruct (foldM_inv (fun done (s : dict2 (list Z) * dict2 (list Z)) => let '(hi', he') := s in
      let L q := if i =? q then [] else filter (fun c => mem q (nthZ [] (p_cpart p0) c)) done in
      let F1 k := (if (0 <=? fst k) && (fst k <? i) then sendl (fst k) (snd k) else []) ++ (if fst k =? i then L (snd k) else []) in
      let F2 k := (if (0 <=? snd k) && (snd k <? i) then sendl (snd k) (fst k) else []) ++ (if snd k =? i then L (fst k) else []) in
      (forall k, dget_opt hi' k = dopt (F1 k)) /\ (forall k, dget_opt he' k = dopt (F2 k)))
      (halo_dict_cell (p_cpart p0) i) (phalo i) (hi, he)) as ((hi' & he') & E & G1 & G2).
    + split; intros k; rewrite ?H1, ?H2; (destruct (_ =? i)); try (destruct (i =? _)); cbn; rewrite app_nil_r; reflexivity.
    + intros done c rest (hi' & he') Hd (G1 & G2).
      assert (Hc : is_cell cells c).
      { eapply halo_cells; [exact Hi|]. rewrite Hd; apply in_or_app; right; left; reflexivity. }
      destruct (po_cpart _ _ _ _ _ _ PO) as (Hcl & Hcp). destruct (Hcp c Hc) as (Hnd & _).
      unfold halo_dict_cell. rewrite (get_nthZ []) by (unfold is_cell in Hc; lia). cbn [bind].
      eexists; split; [reflexivity|]. set (cc := nthZ [] (p_cpart p0) c) in *.
      assert (G : forall l1 l2 a b, cc = l1 ++ l2 ->
        (forall k, dget_opt a k = dopt (((if (0 <=? fst k) && (fst k <? i) then sendl (fst k) (snd k) else []) ++
                 (if fst k =? i then if i =? snd k then [] else filter (fun c => mem (snd k) (nthZ [] (p_cpart p0) c)) done else []))
                 ++ (if (fst k =? i) && negb (i =? snd k) && mem (snd k) l1 then [c] else []))) ->
        (forall k, dget_opt b k = dopt (((if (0 <=? snd k) && (snd k <? i) then sendl (snd k) (fst k) else []) ++
                 (if snd k =? i then if i =? fst k then [] else filter (fun c => mem (fst k) (nthZ [] (p_cpart p0) c)) done else []))
                 ++ (if (snd k =? i) && negb (i =? fst k) && mem (fst k) l1 then [c] else []))) ->
        let '(a', b') := fold_left (fun '(hi, he) q => if negb (i =? q) then (dappend hi (i, q) c, dappend he (q, i) c) else (hi, he)) l2 (a, b) in
        (forall k, dget_opt a' k = dopt (((if (0 <=? fst k) && (fst k <? i) then sendl (fst k) (snd k) else []) ++
                 (if fst k =? i then if i =? snd k then [] else filter (fun c => mem (snd k) (nthZ [] (p_cpart p0) c)) done else []))
                 ++ (if (fst k =? i) && negb (i =? snd k) && mem (snd k) cc then [c] else []))) /\
        (forall k, dget_opt b' k = dopt (((if (0 <=? snd k) && (snd k <? i) then sendl (snd k) (fst k) else []) ++
                 (if snd k =? i then if i =? fst k then [] else filter (fun c => mem (fst k) (nthZ [] (p_cpart p0) c)) done else []))
                 ++ (if (snd k =? i) && negb (i =? fst k) && mem (fst k) cc then [c] else [])))).
      { intros l1 l2; revert l1; induction l2 as [|q l2 IHl]; intros l1 a b Hcc A B; cbn [fold_left].
        - rewrite app_nil_r in Hcc; subst l1. split; assumption.
        - assert (Hq : ~ In q l1).
          { rewrite Hcc in Hnd. apply NoDup_remove_2 in Hnd. intros Hin; apply Hnd, in_or_app; left; exact Hin. }
          assert (Hmem : forall x, mem x (l1 ++ [q]) = mem x l1 || (x =? q)).
          { intros x. unfold mem. rewrite existsb_app. cbn. rewrite orb_false_r; reflexivity. }
          apply mem_not_In in Hq.
          destruct (Z.eqb_spec i q) as [<-|Hne]; cbn [negb].
          + apply (IHl (l1 ++ [i])); [rewrite <- app_assoc; exact Hcc| |].
            * intros k; rewrite A. f_equal. f_equal. rewrite Hmem. destruct (Z.eqb_spec i (snd k)); cbn.
              -- rewrite !andb_false_r; reflexivity.
              -- destruct (Z.eqb_spec (snd k) i); [congruence|]. rewrite orb_false_r; reflexivity.
            * intros k; rewrite B. f_equal. f_equal. rewrite Hmem. destruct (Z.eqb_spec i (fst k)); cbn.
              -- rewrite !andb_false_r; reflexivity.
              -- destruct (Z.eqb_spec (fst k) i); [congruence|]. rewrite orb_false_r; reflexivity.
          + apply (IHl (l1 ++ [q])); [rewrite <- app_assoc; exact Hcc| |].
            * intros k. rewrite (dappend_dopt _ _ _ _ A). f_equal. rewrite <- app_assoc. f_equal. rewrite Hmem.
              unfold key2_eqb. cbn [fst snd]. destruct k as [k1 k2]; cbn [fst snd].
              rewrite (Z.eqb_sym i k1). destruct (Z.eqb_spec k1 i); cbn; [|reflexivity].
              destruct (Z.eqb_spec q k2) as [<-|].
              -- rewrite Hq. destruct (Z.eqb_spec i q); [congruence|]. rewrite Z.eqb_refl. reflexivity.
              -- destruct (Z.eqb_spec k2 q); [congruence|]. rewrite orb_false_r, app_nil_r. reflexivity.
            * intros k. rewrite (dappend_dopt _ _ _ _ B). f_equal. rewrite <- app_assoc. f_equal. rewrite Hmem.
              unfold key2_eqb. cbn [fst snd]. destruct k as [k2 k1]; cbn [fst snd].
              rewrite (Z.eqb_sym i k1). destruct (Z.eqb_spec k1 i); cbn; [|rewrite andb_false_r; reflexivity].
              rewrite andb_true_r. destruct (Z.eqb_spec q k2) as [<-|].
              -- rewrite Hq. destruct (Z.eqb_spec i q); [congruence|]. rewrite Z.eqb_refl. reflexivity.
              -- destruct (Z.eqb_spec k2 q); [congruence|]. rewrite orb_false_r, app_nil_r. reflexivity. }
      specialize (G [] cc hi' he' eq_refl).
      destruct (fold_left _ cc (hi', he')) as (a' & b').
      destruct G as (A & B).
      * intros k; rewrite G1. cbn. rewrite andb_false_r, app_nil_r. reflexivity.
      * intros k; rewrite G2. cbn. rewrite andb_false_r, app_nil_r. reflexivity.
      * split; intros k; rewrite ?A, ?B; f_equal; rewrite <- app_assoc; f_equal.
        -- destruct (fst k =? i); cbn; [|reflexivity]. destruct (i =? snd k); cbn; [reflexivity|].
           rewrite filter_app_. cbn. fold cc. destruct (mem (snd k) cc); reflexivity.
        -- destruct (snd k =? i); cbn; [|reflexivity]. destruct (i =? fst k); cbn; [reflexivity|].
           rewrite filter_app_. cbn. fold cc. destruct (mem (fst k) cc); reflexivity.
    + exists (hi', he'); split; [exact E|]. split; intros k; rewrite ?G1, ?G2; f_equal.
      * destruct k as [a b]; cbn [fst snd]. unfold sendl. destruct (Z.eqb_spec a i) as [->|].
        -- destruct (Z.leb_spec 0 i), (Z.ltb_spec i i), (Z.ltb_spec i (i + 1)); try lia. cbn. reflexivity.
        -- rewrite app_nil_r. destruct (Z.leb_spec 0 a), (Z.ltb_spec a i), (Z.ltb_spec a (i + 1)); try lia; reflexivity.
      * destruct k as [b a]; cbn [fst snd]. unfold sendl. destruct (Z.eqb_spec a i) as [->|].
        -- destruct (Z.leb_spec 0 i), (Z.ltb_spec i i), (Z.ltb_spec i (i + 1)); try lia. cbn. reflexivity.
        -- rewrite app_nil_r. destruct (Z.leb_spec 0 a), (Z.ltb_spec a i), (Z.ltb_spec a (i + 1)); try lia; reflexivity.
Qed.
End P2.
