(** * Proofs_comm: halo exchange and solution scatter. *)
From Verif Require Import Py PyLemmas Model_part Model_comm Spec_part Proofs_part1 Proofs_part2 Proofs_part3.
From Coq Require Import ZifyBool Sorting.Sorted Permutation.

(** ** globtoloc *)
Lemma globtoloc_acc l n (d : dictZ Z) :
  NoDup l ->
  forall c, zget_opt (snd (fold_left (fun '(cmpt, d) c => (cmpt + 1, zset d c cmpt)) l (n, d))) c =
    match zget_opt (snd (fold_left (fun '(cmpt, d) c => (cmpt + 1, zset d c cmpt)) l (n, []))) c with
    | Some v => Some v | None => zget_opt d c end.
Proof.
  revert n d. induction l as [|x l IH]; intros n d Hnd c; cbn [fold_left]; [reflexivity|].
  inversion Hnd; subst. rewrite IH by assumption. symmetry. rewrite IH by assumption.
  destruct (zget_opt (snd _) c); [reflexivity|]. rewrite !zget_opt_zset. cbn.
  destruct (x =? c); reflexivity.
Qed.

Lemma globtoloc_spec_gen l n : NoDup l ->
  forall j, 0 <= j < zlen l ->
  zget_opt (snd (fold_left (fun '(cmpt, d) c => (cmpt + 1, zset d c cmpt)) l (n, []))) (nthZ 0 l j) = Some (n + j).
Proof.
  revert n. induction l as [|x l IH]; intros n Hnd j Hj; [unfold zlen in Hj; cbn in Hj; lia|].
  inversion Hnd as [|? ? Hni Hnd']; subst. rewrite zlen_cons in Hj. cbn [fold_left].
  rewrite globtoloc_acc by assumption. cbn [zset].
  destruct (Z.eq_dec j 0) as [->|Hne].
  - cbn [nthZ nth Z.to_nat]. change (nthZ 0 (x :: l) 0) with x.
    destruct (zget_opt _ x) eqn:E.
    + exfalso. apply Hni. clear -E. revert E. generalize (n + 1) as m.
      assert (G : forall l m d, zget_opt (snd (fold_left (fun '(cmpt, d) c => (cmpt + 1, zset d c cmpt)) l (m, d))) x <> None ->
                  In x l \/ zget_opt d x <> None).
      { clear. induction l as [|y l IH]; intros m d H; cbn in *; [right; exact H|].
        apply IH in H as [H|H]; [tauto|]. rewrite zget_opt_zset in H. destruct (Z.eqb_spec y x); [tauto | tauto]. }
      intros m E. destruct (G l m []) as [H|H]; [intros Habs; discriminate (eq_trans (eq_sym E) Habs) | exact H | cbn in H; congruence].
    + cbn. rewrite Z.eqb_refl. f_equal; lia.
  - rewrite nthZ_cons by lia. rewrite IH by (auto; lia). f_equal; lia.
Qed.

Lemma globtoloc_spec l j : NoDup l -> 0 <= j < zlen l -> zget (globtoloc l) (nthZ 0 l j) = Ok j.
Proof. intros; unfold zget, globtoloc. rewrite globtoloc_spec_gen by assumption. f_equal. Qed.

(** ** scount *)
Fixpoint assoc (neigh cnt : list Z) (p : Z) : Z :=
  match neigh, cnt with
  | q :: n', c :: c' => if q =? p then c else assoc n' c' p
  | _, _ => 0
  end.

Lemma assoc_map (f : Z -> Z) neigh p : assoc neigh (map f neigh) p = if mem p neigh then f p else 0.
Proof.
  induction neigh as [|q l IH]; cbn; [reflexivity|]. rewrite Z.eqb_sym.
  destruct (Z.eqb_spec p q); [subst; reflexivity | exact IH].
Qed.

Lemma scount_full_spec SIZE neigh (f : Z -> Z) : 0 <= SIZE -> NoDup neigh -> (forall p, In p neigh -> 0 <= p < SIZE) ->
  scount_full SIZE neigh (map f neigh) = Ok (map (fun p => if mem p neigh then f p else 0) (range SIZE)).
Proof.
  intros HS Hnd Hr. unfold scount_full.
  edestruct (foldM_range_inv (fun n sc => zlen sc = SIZE /\
     forall p, 0 <= p < SIZE -> nthZ 0 sc p = if mem p (firstn (Z.to_nat n) neigh) then f p else 0)) as (sc & E & H1 & H2).
  4: { rewrite E. f_equal. apply (nthZ_ext 0).
       - rewrite zlen_map, zlen_range; lia.
       - intros p Hp. rewrite H2 by lia. rewrite (nthZ_map _ 0) by (rewrite zlen_range; lia).
         rewrite nthZ_range by lia. rewrite firstn_all2 by (unfold zlen; lia). reflexivity. }
  - apply zlen_nonneg.
  - split; [rewrite zlen_map, zlen_range; lia|]. intros p Hp. rewrite (nthZ_map _ 0) by (rewrite zlen_range; lia). reflexivity.
  - intros i sc Hi (H1 & H2). rewrite (get_nthZ 0) by lia. cbn [bind].
    rewrite (get_nthZ 0) by (rewrite zlen_map; lia). cbn [bind].
    assert (Hp : 0 <= nthZ 0 neigh i < SIZE) by (apply Hr, nthZ_In; lia).
    rewrite set_upd by lia. eexists; split; [reflexivity|]. split; [rewrite zlen_upd; assumption|].
    intros p Hp'. rewrite nthZ_upd by lia. rewrite (nthZ_map _ 0) by lia.
    assert (Hf : firstn (Z.to_nat (i + 1)) neigh = firstn (Z.to_nat i) neigh ++ [nthZ 0 neigh i]).
    { replace (Z.to_nat (i + 1)) with (S (Z.to_nat i)) by lia. unfold nthZ.
      assert (Hlt : (Z.to_nat i < length neigh)%nat) by (unfold zlen in Hi; lia). revert Hlt. clear.
      generalize (Z.to_nat i) as n. induction neigh as [|x l IH]; intros n Hn; cbn in Hn; [lia|].
      destruct n; cbn; [reflexivity|]. f_equal. apply IH. lia. }
    rewrite Hf. unfold mem. rewrite existsb_app. cbn [existsb]. rewrite orb_false_r.
    fold (mem p (firstn (Z.to_nat i) neigh)). rewrite H2 by lia.
    destruct (Z.eqb_spec p (nthZ 0 neigh i)); [subst; rewrite orb_true_r; reflexivity|]. rewrite orb_false_r. reflexivity.
Qed.

Lemma filter_pos_map (f : Z -> Z) (neigh : list Z) n :
  StronglySorted Z.lt neigh -> (forall p, In p neigh -> 0 <= p < n) -> (forall p, In p neigh -> 0 < f p) ->
  filter (fun k => 0 <? k) (map (fun p => if mem p neigh then f p else 0) (range n)) = map f neigh.
Proof.
  intros Hs Hr Hf.
  assert (G : neigh = filter (fun p => mem p neigh) (range n)).
  { apply sorted_lt_unique; [assumption | apply sorted_lt_filter, Sorted_lt_range|].
    intros x. rewrite filter_In, in_range, mem_In. split; [auto | tauto]. }
  transitivity (map f (filter (fun p => mem p neigh) (range n))); [|rewrite <- G; reflexivity].
  clear G. generalize (range n) as l. induction l as [|x l IH]; cbn; [reflexivity|].
  destruct (mem_spec x neigh).
  - assert (0 <? f x = true) as -> by (apply Z.ltb_lt, Hf; assumption). cbn. rewrite IH. reflexivity.
  - cbn. exact IH.
Qed.

(** ** messages *)
Lemma firstn_app_exact {A} (a b : list A) n : n = length a -> firstn n (a ++ b) = a.
Proof. intros ->. rewrite firstn_app, Nat.sub_diag, firstn_all. cbn. apply app_nil_r. Qed.
Lemma skipn_app_exact {A} (a b : list A) n : n = length a -> skipn n (a ++ b) = b.
Proof. intros ->. rewrite skipn_app, Nat.sub_diag, skipn_all. reflexivity. Qed.

Lemma message_spec {V} (neigh : list Z) (B : Z -> list V) dst :
  In dst neigh -> message neigh (map (fun p => zlen (B p)) neigh) (concat (map B neigh)) dst = Some (B dst).
Proof.
  induction neigh as [|p l IH]; cbn; [tauto|]. intros [->|Hin].
  - rewrite Z.eqb_refl. rewrite firstn_app_exact by (unfold zlen; lia). reflexivity.
  - destruct (Z.eqb_spec p dst) as [->|].
    + rewrite firstn_app_exact by (unfold zlen; lia). reflexivity.
    + rewrite skipn_app_exact by (unfold zlen; lia). apply IH, Hin.
Qed.

Section Exchange.
Context {V : Type}.
Variables (dim SIZE : Z) (cells : list (list Z)) (nodes : list pt) (ghost npart0 epart : list Z).
Hypothesis WF : wf_input dim SIZE cells nodes ghost npart0 epart.
Variable files : list rankfile.
Hypothesis HL : zlen files = SIZE.
Hypothesis FO : forall i, 0 <= i < SIZE -> file_ok dim cells nodes ghost epart i (nthZ empty_file files i).

Local Notation fl i := (nthZ empty_file files i).
Local Notation ng i := (rf_neigh (fl i)).
Local Notation snd_ i j := (to_send cells epart i j).

Lemma neigh_size i p : 0 <= i < SIZE -> In p (ng i) -> 0 <= p < SIZE.
Proof.
  intros Hi Hp. apply (fo_neigh_in _ _ _ _ _ _ _ (FO i Hi)) in Hp as (_ & c & c' & _ & Hc' & _ & <- & _).
  eapply wf_epart; eauto.
Qed.
Lemma neigh_sym i j : 0 <= i < SIZE -> In j (ng i) -> In i (ng j).
Proof.
  intros Hi Hj. pose proof (neigh_size i j Hi Hj) as Hjs.
  apply (fo_neigh_in _ _ _ _ _ _ _ (FO i Hi)) in Hj as (Hne & Ha).
  apply (fo_neigh_in _ _ _ _ _ _ _ (FO j Hjs)). split; [congruence|]. apply adjacent_sym; exact Ha.
Qed.
Lemma send_pos i j : 0 <= i < SIZE -> In j (ng i) -> 0 < zlen (snd_ i j).
Proof.
  intros Hi Hj. apply (fo_neigh_in _ _ _ _ _ _ _ (FO i Hi)) in Hj as (Hne & Ha).
  pose proof (to_send_nonempty _ _ _ _ Ha). destruct (snd_ i j); [congruence|]. rewrite zlen_cons; pose proof (zlen_nonneg l); lia.
Qed.
Lemma neigh_NoDup i : 0 <= i < SIZE -> NoDup (ng i).
Proof. intros Hi; apply sorted_lt_NoDup, (fo_neigh_sorted _ _ _ _ _ _ _ (FO i Hi)). Qed.

Definition comm_of i : rankcomm :=
  {| rc_neigh := ng i; rc_scount := map (fun j => zlen (snd_ i j)) (ng i);
     rc_rcount := map (fun j => zlen (snd_ j i)) (ng i);
     rc_indsend := match mapM (fun c => zget (globtoloc (rf_loctoglob (fl i))) c) (rf_halosint (fl i)) with Ok l => l | Err _ => [] end;
     rc_taille := fold_left Z.add (map (fun s => if mem i (ng s) then zlen (snd_ s i) else 0) (range SIZE)) 0 |}.

Lemma owned_NoDup i : NoDup (owned cells epart i).
Proof. apply sorted_lt_NoDup, owned_sorted. Qed.

Lemma g2l_owned i c : is_cell cells c -> owner epart c = i ->
  exists j, zget (globtoloc (owned cells epart i)) c = Ok j /\ 0 <= j < zlen (owned cells epart i) /\ nthZ 0 (owned cells epart i) j = c.
Proof.
  intros Hc Ho. assert (Hin : In c (owned cells epart i)) by (apply owned_In; auto).
  destruct (In_nthZ 0 _ _ Hin) as (j & Hj & <-). exists j. split; [apply globtoloc_spec; [apply owned_NoDup | exact Hj]|].
  split; [exact Hj | reflexivity].
Qed.

Lemma indsend_ok i : 0 <= i < SIZE -> exists l, mapM (fun c => zget (globtoloc (rf_loctoglob (fl i))) c) (rf_halosint (fl i)) = Ok l /\
   Forall2 (fun c j => 0 <= j < zlen (rf_loctoglob (fl i)) /\ nthZ 0 (rf_loctoglob (fl i)) j = c) (rf_halosint (fl i)) l.
Proof.
  intros Hi. apply mapM_exists. intros c Hc.
  rewrite (fo_halosint _ _ _ _ _ _ _ (FO i Hi)) in Hc. apply in_concat in Hc as (l & Hl & Hc).
  apply in_map_iff in Hl as (j & <- & _). apply to_send_cell in Hc as (Hc & Ho).
  rewrite (fo_l2g _ _ _ _ _ _ _ (FO i Hi)). apply g2l_owned; assumption.
Qed.

Lemma size_nonneg : 0 <= SIZE.
Proof. pose proof (wf_size _ _ _ _ _ _ _ WF); lia. Qed.

Lemma mem_sym i j : 0 <= i < SIZE -> 0 <= j < SIZE -> mem j (ng i) = mem i (ng j).
Proof.
  intros Hi Hj. destruct (mem_spec j (ng i)) as [H|H], (mem_spec i (ng j)) as [H'|H']; auto; exfalso.
  - apply H', neigh_sym; assumption.
  - apply H, neigh_sym; assumption.
Qed.

Lemma prepare_comm_ok : prepare_comm SIZE files = Ok (map comm_of (range SIZE)).
Proof.
  unfold prepare_comm. pose proof size_nonneg as HS.
  set (sc i := map (fun p => if mem p (ng i) then zlen (snd_ i p) else 0) (range SIZE)).
  assert (E : mapM (fun f => scount_full SIZE (rf_neigh f) (rf_neighcount f)) files = Ok (map sc (range SIZE))).
  { rewrite <- (mapM_range_get _ files SIZE) by (symmetry; exact HL). apply mapM_ok.
    intros i Hi; apply in_range in Hi. rewrite (get_nthZ empty_file) by lia. cbn [bind].
    rewrite (fo_count _ _ _ _ _ _ _ (FO i Hi)).
    apply scount_full_spec; [exact HS | apply neigh_NoDup; exact Hi | intros; eapply neigh_size; eauto]. }
  rewrite E; cbn [bind]. apply mapM_ok. intros r Hr; apply in_range in Hr.
  rewrite (get_nthZ empty_file) by lia. cbn [bind]. unfold prepare_comm_rank.
  rewrite get_map_range by lia. cbn [bind].
  assert (EA : alltoall SIZE (map sc (range SIZE)) r = Ok (map (fun s => if mem r (ng s) then zlen (snd_ s r) else 0) (range SIZE))).
  { unfold alltoall. apply mapM_ok. intros s Hs; apply in_range in Hs. unfold get2. rewrite get_map_range by lia. cbn [bind].
    unfold sc. rewrite get_map_range by lia. reflexivity. }
  rewrite EA; cbn [bind]. destruct (indsend_ok r Hr) as (ind & Ei & _). unfold comm_of. rewrite Ei; cbn [bind]. f_equal. f_equal.
  - unfold sc. apply (filter_pos_map (fun p => zlen (snd_ r p))).
    + apply (fo_neigh_sorted _ _ _ _ _ _ _ (FO r Hr)).
    + intros; eapply neigh_size; eauto.
    + intros; apply send_pos; assumption.
  - rewrite <- (filter_pos_map (fun s => zlen (snd_ s r)) (ng r) SIZE).
    + f_equal. apply map_ext_in. intros s Hs; apply in_range in Hs. rewrite (mem_sym s r) by assumption. reflexivity.
    + apply (fo_neigh_sorted _ _ _ _ _ _ _ (FO r Hr)).
    + intros; eapply neigh_size; eauto.
    + intros s Hs. apply send_pos; [eapply neigh_size; eauto | apply neigh_sym; assumption].
Qed.

Variable d : V.
Variable w : list (list V).
Hypothesis Hw : zlen w = SIZE.
Hypothesis Hwl : forall i, 0 <= i < SIZE -> zlen (nthZ [] w i) = zlen (rf_loctoglob (fl i)).

(** value held by the owner of global cell c *)
Definition own_val (c : Z) : V :=
  nthZ d (nthZ [] w (owner epart c))
    (match zget (globtoloc (owned cells epart (owner epart c))) c with Ok j => j | Err _ => 0 end).

Lemma sendbuf_ok i : 0 <= i < SIZE ->
  define_halosend (nthZ [] w i) (rc_indsend (comm_of i)) = Ok (map own_val (rf_halosint (fl i))).
Proof.
  intros Hi. destruct (indsend_ok i Hi) as (l & E & F). cbn [comm_of rc_indsend]. rewrite E.
  assert (Hin : forall c, In c (rf_halosint (fl i)) -> is_cell cells c /\ owner epart c = i).
  { intros c Hc. rewrite (fo_halosint _ _ _ _ _ _ _ (FO i Hi)) in Hc. apply in_concat in Hc as (l' & Hl & Hc).
    apply in_map_iff in Hl as (j & <- & _). apply to_send_cell in Hc; exact Hc. }
  unfold define_halosend. clear E. induction F as [|c j cs l (Hj & Hn) F IH]; [reflexivity|].
  cbn [mapM map]. rewrite (get_nthZ d) by (rewrite Hwl by exact Hi; lia). cbn [bind].
  rewrite IH by (intros; apply Hin; right; assumption). cbn [bind]. f_equal. f_equal.
  destruct (Hin c (or_introl eq_refl)) as (Hc & Ho). unfold own_val. rewrite Ho.
  rewrite (fo_l2g _ _ _ _ _ _ _ (FO i Hi)) in *. rewrite <- Hn, globtoloc_spec; [reflexivity | apply owned_NoDup | exact Hj].
Qed.

Lemma recv_pieces_ok r : 0 <= r < SIZE -> forall l, (forall s, In s l -> In s (ng r)) ->
  recv_pieces (map comm_of (range SIZE)) (map (fun i => map own_val (rf_halosint (fl i))) (range SIZE)) r
     l (map (fun j => zlen (snd_ j r)) l)
  = Ok (concat (map (fun s => map own_val (snd_ s r)) l)).
Proof.
  intros Hr. induction l as [|s l IH]; intros Hl; cbn [recv_pieces map concat]; [reflexivity|].
  assert (Hs : In s (ng r)) by (apply Hl; left; reflexivity). pose proof (neigh_size r s Hr Hs) as Hss.
  rewrite !get_map_range by exact Hss. cbn [bind comm_of rc_neigh rc_scount].
  rewrite (fo_halosint _ _ _ _ _ _ _ (FO s Hss)), concat_map, map_map.
  assert (Em : message (ng s) (map (fun j => zlen (snd_ s j)) (ng s)) (concat (map (fun x => map own_val (snd_ s x)) (ng s))) r
               = Some (map own_val (snd_ s r))).
  { rewrite <- (message_spec (ng s) (fun x => map own_val (snd_ s x)) r) by (apply neigh_sym; assumption).
    f_equal. apply map_ext; intros; rewrite zlen_map; reflexivity. }
  rewrite Em. rewrite zlen_map, Z.eqb_refl. rewrite IH by (intros; apply Hl; right; assumption). reflexivity.
Qed.

Lemma update_halo_ok :
  update_halo_value SIZE (map comm_of (range SIZE)) w
  = Ok (map (fun r => map (fun h => own_val (hd 0 h)) (rf_halosext (fl r))) (range SIZE)).
Proof.
  unfold update_halo_value.
  rewrite (mapM_ok _ (fun i => map own_val (rf_halosint (fl i)))).
  2: { intros i Hi; apply in_range in Hi. rewrite get_map_range by exact Hi. cbn [bind].
       rewrite (get_nthZ []) by lia. cbn [bind]. apply sendbuf_ok; exact Hi. }
  cbn [bind]. apply mapM_ok. intros r Hr; apply in_range in Hr. rewrite get_map_range by exact Hr. cbn [bind].
  cbn [comm_of rc_neigh rc_rcount]. rewrite recv_pieces_ok by auto. f_equal.
  rewrite (fo_halosext _ _ _ _ _ _ _ (FO r Hr)), concat_map, map_map. f_equal. apply map_ext; intros s.
  rewrite map_map. reflexivity.
Qed.

Lemma own_val_spec o c l : 0 <= o < SIZE -> 0 <= l < zlen (rf_loctoglob (fl o)) -> nthZ 0 (rf_loctoglob (fl o)) l = c ->
  own_val c = nthZ d (nthZ [] w o) l.
Proof.
  intros Ho Hl Hc. rewrite (fo_l2g _ _ _ _ _ _ _ (FO o Ho)) in *.
  assert (Hin : In c (owned cells epart o)) by (rewrite <- Hc; apply nthZ_In; exact Hl).
  apply owned_In in Hin as (Hcell & Hoc). unfold own_val. rewrite Hoc.
  rewrite <- Hc, globtoloc_spec; [reflexivity | apply owned_NoDup | exact Hl].
Qed.
End Exchange.

(** ** solution scatter *)
Lemma convert_solution_ok {V} (d : V) x zero tc n :
  n = zlen tc -> zlen zero = n -> (forall t, In t tc -> 0 <= t < zlen x) ->
  convert_solution x zero tc n = Ok (map (nthZ d x) tc).
Proof.
  intros Hn Hz Ht. unfold convert_solution.
  edestruct (foldM_range_inv (fun m xc => zlen xc = n /\ forall j, 0 <= j < m -> nthZ d xc j = nthZ d x (nthZ 0 tc j))) as (xc & E & H1 & H2).
  4: { rewrite E. f_equal. apply (nthZ_ext d); [rewrite zlen_map; lia|]. intros i Hi. rewrite H2 by lia.
       rewrite (nthZ_map _ 0) by lia. reflexivity. }
  - rewrite Hn; apply zlen_nonneg.
  - split; [exact Hz | intros; lia].
  - intros i xc Hi (H1 & H2). rewrite (get_nthZ 0) by lia. cbn [bind].
    rewrite (get_nthZ d) by (apply Ht, nthZ_In; lia). cbn [bind]. rewrite set_upd by lia.
    eexists; split; [reflexivity|]. split; [rewrite zlen_upd; exact H1|]. intros j Hj.
    rewrite nthZ_upd by lia. destruct (Z.eqb_spec j i); [subst; reflexivity | apply H2; lia].
Qed.

Lemma scatterv_concat {V} (L : list (list V)) : scatterv (map zlen L) (concat L) = L.
Proof.
  induction L as [|l L IH]; cbn; [reflexivity|].
  rewrite firstn_app_exact by (unfold zlen; lia). rewrite skipn_app_exact by (unfold zlen; lia). rewrite IH. reflexivity.
Qed.
