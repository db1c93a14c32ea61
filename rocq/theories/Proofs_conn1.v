(** * Proofs_conn1: generic loop lemmas and C10 *)
From Verif Require Import Py PyLemmas Scatter Model_conn Spec_conn.
From Coq Require Import Permutation Sorting.Sorted ZifyBool.

Lemma foldM_ext_inv {S X} (P : S -> Prop) (f g : S -> X -> res S) l s :
  P s -> (forall s x, P s -> In x l -> f s x = g s x /\ forall s', g s x = Ok s' -> P s') ->
  foldM f l s = foldM g l s.
Proof.
  revert s; induction l as [|x l IH]; intros s Hs H; cbn; [reflexivity|].
  destruct (H s x Hs (or_introl eq_refl)) as (E & HP). rewrite E. destruct (g s x) as [s'|e]; cbn; [|reflexivity].
  apply IH; [apply HP; reflexivity|]. intros s2 y Hs2 Hy. apply H; [exact Hs2 | right; exact Hy].
Qed.

Lemma get2_nthZ {A} (d : A) (l : list (list A)) i j :
  0 <= i < zlen l -> 0 <= j < zlen (nthZ [] l i) -> get2 l i j = Ok (nthZ d (nthZ [] l i) j).
Proof. intros Hi Hj. unfold get2. rewrite (get_nthZ []) by exact Hi. cbn. apply get_nthZ; exact Hj. Qed.

Lemma nested_rows {S} (f : S -> Z -> Z -> res S) (rows : list (list Z)) m s :
  (forall i, 0 <= i < zlen rows -> zlen (nthZ [] rows i) = m) ->
  foldM (fun s i => foldM (fun s j => do n <- get2 rows i j; f s i n) (range m) s) (range (zlen rows)) s
  = foldM (fun s p => f s (fst p) (snd p)) (pairs_of (fun i => nthZ [] rows i) (range (zlen rows))) s.
Proof.
  intros H. unfold pairs_of.
  rewrite <- (foldM_nested (fun s p => f s (fst p) (snd p)) (fun i => nthZ [] rows i) (range (zlen rows)) s). cbn [fst snd].
  apply foldM_ext. intros s0 i Hi. apply in_range in Hi.
  rewrite <- (foldM_range_get (fun s n => f s i n) (nthZ [] rows i) m) by (symmetry; apply H; exact Hi).
  apply foldM_ext. intros s1 j Hj. unfold get2. rewrite (get_nthZ []) by exact Hi. reflexivity.
Qed.

Lemma pairs_of_In {X} (rows : X -> list Z) xs p : In p (pairs_of rows xs) <-> In (fst p) xs /\ In (snd p) (rows (fst p)).
Proof.
  unfold pairs_of. rewrite in_flat_map. destruct p as [x k]; cbn. split.
  - intros (x' & Hx & Hk). apply in_map_iff in Hk as (k' & [= -> ->] & Hk). auto.
  - intros (Hx & Hk). exists x. split; [exact Hx|]. apply in_map_iff. exists k; auto.
Qed.

Lemma zlen_zeros_like {A} (v : A) n : 0 <= n -> zlen (zeros_like v n) = n.
Proof. intros; unfold zeros_like; rewrite zlen_map, zlen_range; lia. Qed.
Lemma nthZ_zeros_like {A} (d v : A) n i : 0 <= i < n -> nthZ d (zeros_like v n) i = v.
Proof. intros; unfold zeros_like. rewrite (nthZ_map _ 0) by (rewrite zlen_range; lia). reflexivity. Qed.

Lemma map_upd {A B} (f : A -> B) l i v : map f (upd l i v) = upd (map f l) i (f v).
Proof. unfold upd. generalize (Z.to_nat i). induction l as [|x l IH]; intros [|k]; cbn; try reflexivity. rewrite IH; reflexivity. Qed.

Lemma fold_snoc_id {A} (l acc : list A) : fold_left (fun r x => r ++ [x]) l acc = acc ++ l.
Proof. revert acc; induction l as [|x l IH]; intros acc; cbn; [rewrite app_nil_r; reflexivity|]. rewrite IH, <- app_assoc; reflexivity. Qed.

Section C10.
Context (dim nbnodes : Z) (cells : list (list Z)).
Hypothesis WF : wf_mesh dim nbnodes cells.
Let nb := zlen cells.

Lemma dim_cases : dim = 2 \/ dim = 3. Proof. apply (wm_dim _ _ _ WF). Qed.
Lemma row_in c : 0 <= c < nb -> In (cell cells c) cells. Proof. intros; apply nthZ_In; assumption. Qed.
Lemma row_len c : 0 <= c < nb -> zlen (cell cells c) = dim + 1. Proof. intros H; apply (wm_rows _ _ _ WF), row_in, H. Qed.
Lemma row_nodup c : 0 <= c < nb -> NoDup (cell cells c). Proof. intros H; apply (wm_rows _ _ _ WF), row_in, H. Qed.
Lemma row_rng c k : 0 <= c < nb -> In k (cell cells c) -> 0 <= k < nbnodes.
Proof. intros H Hk; apply (proj2 (proj2 (wm_rows _ _ _ WF _ (row_in c H)))), Hk. Qed.

(** cells having node k, increasing *)
Definition cells_at (k : Z) : list Z := filter (fun c => mem k (cell cells c)) (range nb).
(** cells other than c sharing a node with c, increasing *)
Definition cells_around (c : Z) : list Z :=
  filter (fun c' => negb (c' =? c) && existsb (fun k => mem k (cell cells c')) (cell cells c)) (range nb).

Hypothesis Hnn : 0 <= nbnodes.

Lemma node_cells_ok : node_cells_loop cells nb nbnodes dim = Ok (map cells_at (range nbnodes), map (fun k => zlen (cells_at k)) (range nbnodes)).
Proof.
  unfold node_cells_loop.
  pose (f := fun (s : list (list Z) * list Z) (i n : Z) => let '(tmp, longn) := s in
      do tmp <- append_at tmp n i; do c <- get longn n; do longn <- set longn n (c + 1); ret (tmp, longn)).
  transitivity (foldM (fun s i => foldM (fun s j => do n <- get2 cells i j; f s i n) (range (dim + 1)) s) (range (zlen cells))
      (zeros_like [] nbnodes, zeros_like 0 nbnodes)).
  { apply foldM_ext. intros s i Hi. apply foldM_ext. intros [t l] j Hj. reflexivity. }
  rewrite nested_rows by (intros; apply row_len; assumption).
  fold nb. set (P := pairs_of (fun i => nthZ [] cells i) (range nb)).
  pose (g := fun (r : list Z) (i : Z) => r ++ [i]).
  assert (HP : forall p, In p P -> 0 <= snd p < nbnodes).
  { intros p Hp. apply pairs_of_In in Hp as (H1 & H2). apply in_range in H1. eapply row_rng; eauto. }
  assert (G : forall P t, zlen t = nbnodes -> (forall p, In p P -> 0 <= snd p < nbnodes) ->
     foldM (fun s p => f s (fst p) (snd p)) P (t, map zlen t) = bind (foldM (scat_step g) P t) (fun t => Ok (t, map zlen t))).
  { clear. induction P as [|[i n] P IH]; intros t HL H; [reflexivity|]. cbn [foldM fst snd].
    pose proof (H _ (or_introl eq_refl)) as Hn; cbn in Hn. change (f (t, map zlen t) i n) with (do tmp <- append_at t n i; do c <- get (map zlen t) n; do longn <- set (map zlen t) n (c + 1); ret (tmp, longn)).
    rewrite append_at_upd by lia. cbn [bind]. rewrite (get_nthZ 0) by (rewrite zlen_map; lia). cbn [bind].
    rewrite set_upd by (rewrite zlen_map; lia). cbn [bind]. rewrite (scat_step_ok []) by lia. cbn [bind].
    rewrite (nthZ_map _ []) by lia.
    replace (upd (map zlen t) n (zlen (nthZ [] t n) + 1)) with (map zlen (upd t n (g (nthZ [] t n) i))).
    2: { rewrite map_upd. f_equal. unfold g. rewrite zlen_app. reflexivity. }
    change (nthZ [] t n ++ [i]) with (g (nthZ [] t n) i).
    apply IH; [rewrite zlen_upd; exact HL | intros; apply H; right; assumption]. }
  replace (zeros_like 0 nbnodes) with (map zlen (zeros_like (@nil Z) nbnodes)).
  2: { unfold zeros_like. rewrite map_map. reflexivity. }
  rewrite G; [|apply zlen_zeros_like; exact Hnn | exact HP].
  destruct (scat_spec [] g P (zeros_like [] nbnodes)) as (s & E & HL & HS).
  { intros p Hp. rewrite zlen_zeros_like by exact Hnn. apply HP; exact Hp. }
  rewrite E. cbn [bind]. rewrite zlen_zeros_like in * by exact Hnn.
  assert (Es : s = map cells_at (range nbnodes)).
  { apply (nthZ_ext []); [rewrite zlen_map, zlen_range; lia|]. intros k Hk.
    rewrite (nthZ_map _ 0) by (rewrite zlen_range; lia). rewrite nthZ_range by lia. rewrite HS by lia.
    rewrite nthZ_zeros_like by lia. unfold g. rewrite fold_snoc_id. cbn [app].
    unfold P. rewrite labels_pairs_of; [reflexivity|]. intros x Hx. apply in_range in Hx. apply row_nodup; exact Hx. }
  rewrite Es, map_map. reflexivity.
Qed.

(** candidates for cell i *)
Definition uadd (i : Z) (acc : list Z) (c : Z) : list Z := if negb (mem c acc) && negb (c =? i) then acc ++ [c] else acc.
Lemma uadd_spec i L : forall acc, NoDup acc -> ~ In i acc ->
  NoDup (fold_left (uadd i) L acc) /\ forall x, In x (fold_left (uadd i) L acc) <-> In x acc \/ (In x L /\ x <> i).
Proof.
  induction L as [|c L IH]; intros acc Hn Hi; cbn [fold_left]; [split; [exact Hn|]; cbn; intros x; tauto|].
  destruct (negb (mem c acc) && negb (c =? i)) eqn:E.
  - replace (uadd i acc c) with (acc ++ [c]) by (unfold uadd; rewrite E; reflexivity). apply andb_true_iff in E as (E1 & E2). apply negb_true_iff in E1, E2. apply mem_not_In in E1. apply Z.eqb_neq in E2.
    destruct (IH (acc ++ [c])) as (A & B).
    + apply (Permutation_NoDup (l := c :: acc)); [apply Permutation_cons_append | constructor; assumption].
    + rewrite in_app_iff; cbn; intuition.
    + split; [exact A|]. intros x. rewrite B, in_app_iff. cbn. intuition congruence.
  - replace (uadd i acc c) with acc by (unfold uadd; rewrite E; reflexivity). destruct (IH acc Hn Hi) as (A & B). split; [exact A|]. intros x. rewrite B. cbn.
    split; [intuition|]. intros [H|[[<-|H] Hne]]; auto. left.
    destruct (mem_spec c acc); [assumption|]. destruct (Z.eqb_spec c i); [congruence|]. discriminate.
Qed.

Lemma cell_cells_fold i L : forall tmp2 longc, zlen tmp2 = nb -> 0 <= i < nb -> longc = map zlen tmp2 ->
  foldM (cell_cells_step i) L (tmp2, longc) =
  Ok (upd tmp2 i (fold_left (uadd i) L (nthZ [] tmp2 i)), map zlen (upd tmp2 i (fold_left (uadd i) L (nthZ [] tmp2 i)))).
Proof.
  induction L as [|c L IH]; intros tmp2 longc HL Hi ->; cbn [foldM fold_left].
  - rewrite upd_same by lia. reflexivity.
  - change (cell_cells_step i (tmp2, map zlen tmp2) c) with (do r <- get tmp2 i;
  if negb (mem c r) && negb (c =? i) then
    do tmp2' <- append_at tmp2 i c; do l <- get (map zlen tmp2) i; do longc <- set (map zlen tmp2) i (l + 1); ret (tmp2', longc)
  else ret (tmp2, map zlen tmp2)). rewrite (get_nthZ []) by lia. cbn [bind].
    destruct (negb (mem c (nthZ [] tmp2 i)) && negb (c =? i)) eqn:E; cbn [bind].
    + replace (uadd i (nthZ [] tmp2 i) c) with (nthZ [] tmp2 i ++ [c]) by (unfold uadd; rewrite E; reflexivity). rewrite append_at_upd by lia. cbn [bind]. rewrite (get_nthZ 0) by (rewrite zlen_map; lia). cbn [bind].
      rewrite set_upd by (rewrite zlen_map; lia). cbn [bind].
      rewrite IH; [|rewrite zlen_upd; lia | lia |].
      2: { rewrite map_upd. f_equal. rewrite (nthZ_map _ []) by lia. rewrite zlen_app. reflexivity. }
      rewrite nthZ_upd_eq by lia.
      assert (U : forall {A} (l : list A) v w, upd (upd l i v) i w = upd l i w).
      { intros A l v w. unfold upd. generalize (Z.to_nat i). clear. induction l as [|x l IH]; intros [|k]; cbn; try reflexivity. rewrite IH; reflexivity. }
      rewrite U. reflexivity.
    + replace (uadd i (nthZ [] tmp2 i) c) with (nthZ [] tmp2 i) by (unfold uadd; rewrite E; reflexivity).
      apply IH; [lia | lia | reflexivity].
Qed.

Lemma around_sort c : 0 <= c < nb -> np_sort (fold_left (uadd c) (flat_map cells_at (cell cells c)) []) = cells_around c.
Proof.
  intros Hc. destruct (uadd_spec c (flat_map cells_at (cell cells c)) []) as (A & B); [constructor | intros [] |].
  apply sorted_lt_unique.
  - assert (HS := np_sort_sorted (fold_left (uadd c) (flat_map cells_at (cell cells c)) [])).
    assert (HN : NoDup (np_sort (fold_left (uadd c) (flat_map cells_at (cell cells c)) []))).
    { eapply Permutation_NoDup; [symmetry; apply np_sort_perm | exact A]. }
    revert HS HN. generalize (np_sort (fold_left (uadd c) (flat_map cells_at (cell cells c)) [])). clear.
    induction l as [|x l IH]; intros HS HN; constructor.
    + inversion HS; inversion HN; subst; auto.
    + inversion HS as [|? ? HS1 HF]; inversion HN as [|? ? Hx HN1]; subst. rewrite Forall_forall in *. intros y Hy. specialize (HF y Hy).
      assert (x <> y) by congruence. lia.
  - apply sorted_lt_filter, Sorted_lt_range.
  - intros x. rewrite np_sort_In, B. unfold cells_around. rewrite filter_In, in_range, andb_true_iff, negb_true_iff, Z.eqb_neq, existsb_exists.
    rewrite in_flat_map. unfold cells_at. cbn [In]. setoid_rewrite filter_In. setoid_rewrite in_range. firstorder.
Qed.

Lemma cell_cells_ok : cell_cells_loop cells (map cells_at (range nbnodes)) nb dim
  = Ok (map cells_around (range nb), map (fun c => zlen (cells_around c)) (range nb)).
Proof.
  unfold cell_cells_loop. pose proof (zlen_nonneg cells) as Hnb. fold nb in Hnb.
  destruct (foldM_range_inv (fun k (s : list (list Z) * list Z) => snd s = map zlen (fst s) /\ zlen (fst s) = nb /\
      (forall c, 0 <= c < k -> nthZ [] (fst s) c = cells_around c) /\ (forall c, k <= c < nb -> nthZ [] (fst s) c = []))
     (fun s i =>
    do s <- foldM (fun s j => do n <- get2 cells i j; do l <- get (map cells_at (range nbnodes)) n; foldM (cell_cells_step i) l s) (range (dim + 1)) s;
    let '(tmp2, longc) := s in
    do r <- get tmp2 i; do tmp2 <- set tmp2 i (np_sort r); ret (tmp2, longc)) nb (zeros_like [] nb, zeros_like 0 nb)) as ([t l] & E & H1 & H2 & H3 & _).
  - exact Hnb.
  - cbn. split; [unfold zeros_like; rewrite map_map; reflexivity|]. split; [apply zlen_zeros_like; exact Hnb|]. split; [lia|].
    intros; apply nthZ_zeros_like; lia.
  - intros i [t l] Hi (H1 & H2 & H3 & H4). cbn [fst snd] in *.
    assert (EJ : forall js tt, (forall j, In j js -> 0 <= j < dim + 1) -> zlen tt = nb ->
       foldM (fun s j => do n <- get2 cells i j; do l <- get (map cells_at (range nbnodes)) n; foldM (cell_cells_step i) l s) js (tt, map zlen tt)
       = let r := upd tt i (fold_left (uadd i) (flat_map (fun j => cells_at (nthZ 0 (cell cells i) j)) js) (nthZ [] tt i)) in Ok (r, map zlen r)).
    { induction js as [|j js IH]; intros tt Hj HL; cbn [foldM flat_map fold_left].
      - rewrite upd_same by lia. reflexivity.
      - pose proof (Hj j (or_introl eq_refl)) as Hj0. pose proof (row_len i Hi) as Hrl.
        rewrite (get2_nthZ 0) by (unfold cell in Hrl; lia). cbn [bind]. fold (cell cells i).
        assert (Hn : 0 <= nthZ 0 (cell cells i) j < nbnodes) by (eapply row_rng; [exact Hi | apply nthZ_In; lia]).
        rewrite (get_map_range cells_at) by exact Hn. cbn [bind]. rewrite cell_cells_fold by (auto; lia). cbn [bind].
        rewrite IH; [|intros; apply Hj; right; assumption | rewrite zlen_upd; exact HL]. rewrite nthZ_upd_eq by lia. rewrite fold_left_app. cbv zeta.
        assert (U : forall {A} (l : list A) v w, upd (upd l i v) i w = upd l i w).
        { intros A l0 v w. unfold upd. generalize (Z.to_nat i). clear. induction l0 as [|x l0 IH]; intros [|k]; cbn; try reflexivity. rewrite IH; reflexivity. }
        rewrite U. reflexivity. }
    rewrite H1. rewrite EJ by (auto; intros j Hj; apply in_range; exact Hj). cbv zeta. cbn [bind]. rewrite H4 by lia.
    rewrite (get_nthZ []) by (rewrite zlen_upd; lia). cbn [bind]. rewrite set_upd by (rewrite zlen_upd; lia). cbn [bind].
    rewrite nthZ_upd_eq by lia.
    assert (EF : flat_map (fun j => cells_at (nthZ 0 (cell cells i) j)) (range (dim + 1)) = flat_map cells_at (cell cells i)).
    { rewrite !flat_map_concat_map. rewrite <- (row_len i Hi). rewrite <- (map_map (nthZ 0 (cell cells i)) cells_at), map_nthZ_range. reflexivity. }
    rewrite EF. rewrite around_sort by exact Hi. eexists; split; [reflexivity|]. cbn [fst snd].
    split; [|split; [|split]].
    + rewrite map_upd. rewrite (map_upd zlen). 
      rewrite (map_upd zlen t). 
      assert (EZ : zlen (fold_left (uadd i) (flat_map cells_at (cell cells i)) []) = zlen (cells_around i)).
      { rewrite <- (around_sort i Hi). symmetry. apply zlen_np_sort. }
      rewrite EZ. unfold upd. generalize (Z.to_nat i). generalize (map zlen t). clear. induction l as [|x l IH]; intros [|k]; cbn; try reflexivity. rewrite <- IH; reflexivity.
    + rewrite !zlen_upd; exact H2.
    + intros c Hc. rewrite nthZ_upd by (rewrite ?zlen_upd; lia). destruct (Z.eqb_spec c i); [subst; reflexivity|]. rewrite nthZ_upd_neq by lia. apply H3; lia.
    + intros c Hc. rewrite !nthZ_upd_neq by lia. apply H4; lia.
  - cbn [fst snd] in *. rewrite E. assert (Et : t = map cells_around (range nb)).
    { apply (nthZ_ext []); [rewrite zlen_map, zlen_range; lia|]. intros c Hc. rewrite (nthZ_map _ 0) by (rewrite zlen_range; lia). rewrite nthZ_range by lia. apply H3; lia. }
    subst t. rewrite H1, map_map. reflexivity.
Qed.
End C10.

(** ** padded tables *)
Lemma py_max_spec l m : py_max l = Ok m -> (forall x, In x l -> x <= m) /\ In m l.
Proof.
  destruct l as [|x l]; [discriminate|]. cbn. intros [= <-].
  assert (G : forall l x, (forall y, In y l -> y <= fold_left Z.max l x) /\ x <= fold_left Z.max l x /\ (fold_left Z.max l x = x \/ In (fold_left Z.max l x) l)).
  { clear. induction l as [|y l IH]; intros x; cbn; [intuition|]. destruct (IH (Z.max x y)) as (A & B & C). split; [|split].
    - intros z [<-|Hz]; [lia | apply A; exact Hz].
    - lia.
    - destruct C as [C|C]; [|auto]. rewrite C. destruct (Z.max_spec x y) as [(_ & ->)|(_ & ->)]; auto. }
  destruct (G l x) as (A & B & C). split; [intros y [<-|Hy]; [exact B | apply A; exact Hy]|]. destruct C as [->|C]; auto.
Qed.

Lemma fill_row r m : zlen r <= m ->
  foldM (fun row j => do x <- get r j; set row j x) (range (zlen r)) (zeros_like (-1) m) = Ok (r ++ repeat (-1) (Z.to_nat (m - zlen r))).
Proof.
  intros Hm. pose proof (zlen_nonneg r) as Hr.
  destruct (foldM_range_inv (fun k row => zlen row = m /\ (forall j, 0 <= j < k -> nthZ 0 row j = nthZ 0 r j) /\ forall j, k <= j < m -> nthZ 0 row j = -1)
     (fun row j => do x <- get r j; set row j x) (zlen r) (zeros_like (-1) m)) as (row & E & H1 & H2 & H3).
  - exact Hr.
  - split; [apply zlen_zeros_like; lia|]. split; [lia|]. intros; apply nthZ_zeros_like; lia.
  - intros k row Hk (H1 & H2 & H3). rewrite (get_nthZ 0) by lia. cbn [bind]. rewrite set_upd by lia. eexists; split; [reflexivity|].
    rewrite zlen_upd. split; [exact H1|]. split.
    + intros j Hj. rewrite nthZ_upd by lia. destruct (Z.eqb_spec j k); [subst; reflexivity|]. apply H2; lia.
    + intros j Hj. rewrite nthZ_upd_neq by lia. apply H3; lia.
  - rewrite E. f_equal. apply (nthZ_ext 0).
    + rewrite zlen_app, zlen_repeat. lia.
    + intros j Hj. destruct (Z_lt_ge_dec j (zlen r)).
      * rewrite nthZ_app_l by lia. apply H2; lia.
      * rewrite nthZ_app_r by lia. rewrite nthZ_repeat by lia. apply H3; lia.
Qed.

Lemma row_loop {A} (r : list A) i js : forall (t : list (list A)), 0 <= i < zlen t ->
  foldM (fun t j => do x <- get r j; set2 t i j x) js t
  = do row' <- foldM (fun row j => do x <- get r j; set row j x) js (nthZ [] t i); set t i row'.
Proof.
  induction js as [|j js IH]; intros t Hi; cbn [foldM].
  - cbn [bind]. rewrite set_upd by exact Hi. rewrite upd_same by exact Hi. reflexivity.
  - destruct (get r j) as [x|e] eqn:Ex; cbn [bind]; [|reflexivity]. unfold set2 at 1. rewrite (get_nthZ []) by exact Hi. cbn [bind].
    destruct (set (nthZ [] t i) j x) as [row1|e] eqn:Es; cbn [bind]; [|reflexivity].
    rewrite set_upd by exact Hi. cbn [bind]. rewrite IH by (rewrite zlen_upd; exact Hi). rewrite nthZ_upd_eq by exact Hi.
    destruct (foldM _ js row1) as [row'|e]; cbn [bind]; [|reflexivity].
    rewrite !set_upd by (rewrite ?zlen_upd; exact Hi). f_equal. unfold upd. generalize (Z.to_nat i). clear. 
    induction t as [|y t IH]; intros [|k]; cbn; try reflexivity. rewrite IH; reflexivity.
Qed.

Definition padded (m : Z) (r : list Z) : list Z := r ++ repeat (-1) (Z.to_nat (m - zlen r)) ++ [zlen r].

Lemma pad_table_ok tmp n : zlen tmp = n -> 0 < n ->
  exists m, pad_table tmp (map zlen tmp) n = Ok (map (padded m) tmp) /\ (forall r, In r tmp -> zlen r <= m) /\ (exists r, In r tmp /\ zlen r = m).
Proof.
  intros HL Hn. unfold pad_table. destruct (py_max (map zlen tmp)) as [m|e] eqn:Em.
  2: { destruct tmp; [rewrite zlen_nil in HL; lia | discriminate]. }
  apply py_max_spec in Em as (Hm & Hin). cbn [bind]. exists m.
  assert (Hm' : forall r, In r tmp -> zlen r <= m) by (intros r Hr; apply Hm, in_map, Hr).
  assert (Hnth : forall i, 0 <= i < n -> In (nthZ [] tmp i) tmp) by (intros; apply nthZ_In; lia).
  split; [|split; [exact Hm' | apply in_map_iff in Hin as (r & E & Hr); eauto]].
  rewrite (foldM_ext_inv (fun t : list (list Z) => zlen t = n) _
     (fun t i => do x <- get t i; do y <- (fun i x => foldM (fun row j => do x <- get (nthZ [] tmp i) j; set row j x) (range (zlen (nthZ [] tmp i))) x) i x; set t i y)).
  - rewrite HL. rewrite (foldM_pointwise [] _ (fun i => nthZ [] tmp i ++ repeat (-1) (Z.to_nat (m - zlen (nthZ [] tmp i))))).
    + cbn [bind].
      rewrite (foldM_ext_inv (fun t : list (list Z) => zlen t = n) _
         (fun t i => do x <- get t i; do y <- (fun i x => Ok (x ++ [zlen (nthZ [] tmp i)])) i x; set t i y)).
      * rewrite (foldM_pointwise [] _ (fun i => padded m (nthZ [] tmp i))).
        { f_equal. rewrite <- (map_map (nthZ [] tmp) (padded m)), <- HL, map_nthZ_range. reflexivity. }
        { rewrite zlen_map, zlen_range; lia. }
        { intros i Hi. rewrite (nthZ_map _ 0) by (rewrite zlen_range; lia). rewrite nthZ_range by lia. rewrite <- app_assoc. reflexivity. }
      * rewrite zlen_map, zlen_range; lia.
      * intros t i Ht Hi. apply in_range in Hi. rewrite (get_nthZ 0) by (rewrite zlen_map; lia). rewrite (nthZ_map _ []) by lia.
        cbn [bind]. unfold append_at. rewrite (get_nthZ []) by lia. cbn [bind]. split; [reflexivity|]. intros s'. rewrite set_upd by lia. intros [= <-]. rewrite zlen_upd; exact Ht.
    + apply zlen_zeros_like; lia.
    + intros i Hi. rewrite nthZ_zeros_like by lia. apply fill_row. apply Hm', Hnth; lia.
  - apply zlen_zeros_like; lia.
  - intros t i Ht Hi. apply in_range in Hi. rewrite HL in Hi. rewrite (get_nthZ []) by lia. cbn [bind]. rewrite row_loop by lia. rewrite (get_nthZ []) by lia. cbn [bind].
    split; [reflexivity|]. intros s'. destruct (foldM _ _ _) as [row'|e]; cbn [bind]; [|discriminate]. rewrite set_upd by lia. intros [= <-]. rewrite zlen_upd; exact Ht.
Qed.

Lemma create_node_cellid_ok dim nbnodes cells : wf_mesh dim nbnodes cells -> 0 < nbnodes -> 0 < zlen cells ->
  exists m m', create_node_cellid cells (zlen cells) nbnodes dim
    = Ok (map (fun k => padded m (cells_at cells k)) (range nbnodes), map (fun c => padded m' (cells_around cells c)) (range (zlen cells))) /\
    (forall k, 0 <= k < nbnodes -> zlen (cells_at cells k) <= m) /\ (forall c, 0 <= c < zlen cells -> zlen (cells_around cells c) <= m').
Proof.
  intros WF Hn Hc. unfold create_node_cellid. rewrite (node_cells_ok dim nbnodes cells WF) by lia. cbn [bind].
  rewrite (cell_cells_ok dim nbnodes cells WF). cbn [bind].
  destruct (pad_table_ok (map (cells_at cells) (range nbnodes)) nbnodes) as (m & E & Hm & _); [rewrite zlen_map, zlen_range; lia | lia|].
  destruct (pad_table_ok (map (cells_around cells) (range (zlen cells))) (zlen cells)) as (m' & E' & Hm' & _); [rewrite zlen_map, zlen_range; lia | lia|].
  rewrite map_map in E, E'. rewrite E. cbn [bind]. rewrite E'. cbn [bind]. exists m, m'. rewrite !map_map. split; [reflexivity|].
  split; [intros k Hk; apply Hm, in_map, in_range, Hk | intros k Hk; apply Hm', in_map, in_range, Hk].
Qed.

Lemma c10 dim nbnodes cells : wf_mesh dim nbnodes cells -> 0 < nbnodes -> 0 < zlen cells ->
  exists cellid cellnid m m',
    create_node_cellid cells (zlen cells) nbnodes dim = Ok (cellid, cellnid) /\
    zlen cellid = nbnodes /\ zlen cellnid = zlen cells /\
    (forall k, 0 <= k < nbnodes -> exists L,
       nthZ [] cellid k = L ++ repeat (-1) (Z.to_nat (m - zlen L)) ++ [zlen L] /\ zlen L <= m /\
       StronglySorted Z.lt L /\ forall c, In c L <-> iscell cells c /\ In k (cell cells c)) /\
    (forall c, iscell cells c -> exists L,
       nthZ [] cellnid c = L ++ repeat (-1) (Z.to_nat (m' - zlen L)) ++ [zlen L] /\ zlen L <= m' /\
       StronglySorted Z.lt L /\
       forall c', In c' L <-> iscell cells c' /\ c' <> c /\ exists k, In k (cell cells c) /\ In k (cell cells c')).
Proof.
  intros WF Hn Hc. destruct (create_node_cellid_ok dim nbnodes cells WF Hn Hc) as (m & m' & E & A & B).
  eexists _, _, m, m'. split; [exact E|]. split; [rewrite zlen_map, zlen_range; lia|]. split; [rewrite zlen_map, zlen_range; lia|]. split.
  - intros k Hk. exists (cells_at cells k). rewrite (nthZ_map _ 0) by (rewrite zlen_range; lia). rewrite nthZ_range by lia.
    split; [reflexivity|]. split; [apply A; exact Hk|]. split; [apply sorted_lt_filter, Sorted_lt_range|].
    intros c. unfold cells_at. rewrite filter_In, in_range, mem_In. reflexivity.
  - intros c Hcc. unfold iscell in Hcc. exists (cells_around cells c). rewrite (nthZ_map _ 0) by (rewrite zlen_range; lia). rewrite nthZ_range by lia.
    split; [reflexivity|]. split; [apply B; exact Hcc|]. split; [apply sorted_lt_filter, Sorted_lt_range|].
    intros c'. unfold cells_around. rewrite filter_In, in_range, andb_true_iff, negb_true_iff, Z.eqb_neq, existsb_exists. unfold iscell. setoid_rewrite mem_In.
    firstorder.
Qed.
