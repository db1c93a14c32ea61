(** * Proofs_halo2: halo stencils of nodes and cells *)
From Verif Require Import Py PyLemmas Scatter Model_part Model_label Model_conn Spec_conn Proofs_conn1 Proofs_conn2 Proofs_conn3 Model_geom Spec_geom Model_halo Spec_halo Proofs_halo1.
From Coq Require Import Permutation Sorting.Sorted ZifyBool.
Open Scope Z_scope.

(** halo cells containing the global node g, increasing *)
Definition halos_of (halosext : list (list Z)) (g : Z) : list Z := filter (fun h => mem g (halo_nodes halosext h)) (range (zlen halosext)).

Lemma filter_eq_nodup g l : NoDup l -> filter (Z.eqb g) l = if mem g l then [g] else [].
Proof.
  induction 1 as [|x l Hx Hl IH]; [reflexivity|]. cbn [filter mem existsb]. fold (mem g l). rewrite IH. destruct (Z.eqb_spec g x) as [->|Hne]; cbn [orb]; [|reflexivity].
  apply mem_not_In in Hx. rewrite Hx. reflexivity.
Qed.
Lemma where_rows_ok dim halosext g : (dim = 2 \/ dim = 3) -> wf_halos dim halosext -> where_rows dim halosext g = halos_of halosext g.
Proof.
  intros Hdim WH. unfold where_rows, halos_of.
  assert (G : forall l, (forall h, In h l -> ishalo halosext h) ->
    flat_map (fun i => map (fun _ => i) (filter (Z.eqb g) (firstn (Z.to_nat (dim + 1)) (skipn 1 (nthZ [] halosext i))))) l = filter (fun h => mem g (halo_nodes halosext h)) l).
  { induction l as [|h l IH]; intros Hl; [reflexivity|]. cbn [flat_map filter]. rewrite IH by (intros; apply Hl; right; assumption).
    destruct (WH h (Hl h (or_introl eq_refl))) as (HL & HND).
    assert (E : firstn (Z.to_nat (dim + 1)) (skipn 1 (nthZ [] halosext h)) = halo_nodes halosext h).
    { unfold halo_nodes. destruct (nthZ [] halosext h) as [|c r]; [unfold zlen in HL; cbn in HL; destruct Hdim; lia|]. cbn [skipn tl]. rewrite zlen_cons in HL. apply firstn_all2. unfold zlen in HL. lia. }
    rewrite E, (filter_eq_nodup g _ HND). destruct (mem g (halo_nodes halosext h)); reflexivity. }
  apply G. intros h Hh. apply in_range in Hh. exact Hh.
Qed.
Lemma halos_of_In halosext g h : In h (halos_of halosext g) <-> ishalo halosext h /\ In g (halo_nodes halosext h).
Proof. unfold halos_of. rewrite filter_In, in_range. unfold ishalo. rewrite mem_In. reflexivity. Qed.
Lemma halos_of_sorted halosext g : StronglySorted Z.lt (halos_of halosext g).
Proof. apply sorted_lt_filter, Sorted_lt_range. Qed.

Lemma fold_max_ge {A} (f : A -> Z) (p : A -> bool) l m : m <= fold_left (fun m x => if p x then Z.max m (f x) else m) l m.
Proof. revert m; induction l as [|x l IH]; intros m; cbn; [lia|]. specialize (IH (if p x then Z.max m (f x) else m)). destruct (p x); lia. Qed.
Lemma fold_max_in {A} (f : A -> Z) (p : A -> bool) l m x : In x l -> p x = true -> f x <= fold_left (fun m x => if p x then Z.max m (f x) else m) l m.
Proof.
  revert m; induction l as [|y l IH]; intros m; [intros []|]; intros [->|Hx] Hp; cbn.
  - rewrite Hp. pose proof (fold_max_ge f p l (Z.max m (f x))). lia.
  - apply IH; assumption.
Qed.
Lemma fold_max_zero {A} (f : A -> Z) (p : A -> bool) l m : (forall x, In x l -> p x = false) -> fold_left (fun m x => if p x then Z.max m (f x) else m) l m = m.
Proof. revert m; induction l as [|y l IH]; intros m H; cbn; [reflexivity|]. rewrite (H y (or_introl eq_refl)). apply IH. intros; apply H; right; assumption. Qed.

Lemma mapM_err {X Y} (f : X -> res Y) e l : (forall x, In x l -> (exists y, f x = Ok y) \/ f x = Err e) -> (exists x, In x l /\ f x = Err e) -> mapM f l = Err e.
Proof.
  induction l as [|x l IH]; intros H (x0 & Hin & E); [destruct Hin|]. cbn [mapM]. destruct (H x (or_introl eq_refl)) as [(y & Ey)|Ey]; rewrite Ey; [|reflexivity].
  cbn [bind]. rewrite IH; [reflexivity | intros; apply H; right; assumption |]. destruct Hin as [->|Hin]; [congruence | exists x0; auto].
Qed.

Lemma node_row_ok L t c : zlen t <= L -> node_row L (t, c) = Ok (t ++ repeat (-1) (Z.to_nat (L - zlen t)) ++ [c]).
Proof.
  intros HL. unfold node_row. cbn [fst snd]. pose proof (zlen_nonneg t) as Ht.
  destruct (foldM_range_inv (fun m r => zlen r = L /\ forall j, 0 <= j < L -> nthZ 0 r j = if j <? m then nthZ 0 t j else -1)
     (fun r j => do v <- get t j; set r j v) (zlen t) (zeros_like (-1) L)) as (r & E & HLr & Hr).
  - exact Ht.
  - split; [apply zlen_zeros_like; lia|]. intros j Hj. rewrite nthZ_zeros_like by exact Hj. replace (j <? 0) with false by lia. reflexivity.
  - intros i r Hi (HLr & Hr). rewrite (get_nthZ 0) by exact Hi. cbn [bind]. rewrite set_upd by lia. eexists; split; [reflexivity|]. rewrite zlen_upd. split; [exact HLr|].
    intros j Hj. rewrite nthZ_upd by lia. destruct (Z.eqb_spec j i) as [->|Hne]; [replace (i <? i + 1) with true by lia; reflexivity|]. rewrite Hr by exact Hj. replace (j <? i + 1) with (j <? i) by lia. reflexivity.
  - rewrite E. cbn [bind]. rewrite app_assoc. f_equal. f_equal. apply (nthZ_ext 0).
    + rewrite zlen_app, zlen_repeat, HLr. lia.
    + intros j Hj. rewrite Hr by lia. destruct (Z.ltb_spec j (zlen t)); [rewrite nthZ_app_l by lia; reflexivity|]. rewrite nthZ_app_r by lia. rewrite nthZ_repeat by lia. reflexivity.
Qed.

Section Tables.
Context (dim : Z) (halosext : list (list Z)) (loctoglob nodename : list Z).
Hypothesis Hdim : dim = 2 \/ dim = 3.
Hypothesis WH : wf_halos dim halosext.
Let nbn := zlen loctoglob.
Hypothesis HN : zlen nodename = nbn.
Definition Wn (k : Z) : list Z := halos_of halosext (nthZ 0 loctoglob k).
Definition named (k : Z) : bool := nthZ 0 nodename k =? 10.
Definition pairT (k : Z) : list Z * Z := if named k then (Wn k, zlen (Wn k)) else ([-1], 0).

Lemma node_where_ok k : 0 <= k < nbn -> node_where dim halosext loctoglob nodename k = Ok (pairT k).
Proof.
  intros Hk. unfold node_where, pairT, named. rewrite (get_nthZ 0) by lia. cbn [bind]. destruct (nthZ 0 nodename k =? 10); [|reflexivity].
  rewrite (get_nthZ 0) by exact Hk. cbn [bind]. rewrite (where_rows_ok _ _ _ Hdim WH). reflexivity.
Qed.
Definition longueur : Z := fold_left (fun m k => if named k then Z.max m (zlen (Wn k)) else m) (range nbn) 0.
Lemma longueur_eq : fold_left (fun m (p : Z * (list Z * Z)) => if fst p =? 10 then Z.max m (zlen (fst (snd p))) else m) (combine nodename (map pairT (range nbn))) 0 = longueur.
Proof.
  unfold longueur. rewrite <- (map_nthZ_range 0 nodename) at 1. rewrite HN.
  assert (G : forall l m, fold_left (fun m (p : Z * (list Z * Z)) => if fst p =? 10 then Z.max m (zlen (fst (snd p))) else m) (combine (map (nthZ 0 nodename) l) (map pairT l)) m
     = fold_left (fun m k => if named k then Z.max m (zlen (Wn k)) else m) l m).
  { induction l as [|k l IH]; intros m; cbn [map combine fold_left]; [reflexivity|]. rewrite IH. f_equal. cbn [fst snd]. unfold pairT, named. destruct (nthZ 0 nodename k =? 10); reflexivity. }
  apply G.
Qed.
Definition halo_row (k : Z) : list Z := let W := if named k then Wn k else [] in W ++ repeat (-1) (Z.to_nat (longueur - zlen W)) ++ [zlen W].
Lemma longueur_ge k : 0 <= k < nbn -> named k = true -> zlen (Wn k) <= longueur.
Proof. intros Hk Hn. unfold longueur. apply (fold_max_in (fun k => zlen (Wn k)) named); [apply in_range; exact Hk | exact Hn]. Qed.

Lemma node_halonid_ok : 1 <= longueur -> node_halonid dim halosext loctoglob nodename nbn = Ok (map halo_row (range nbn)).
Proof.
  intros HL. unfold node_halonid. rewrite (mapM_ok _ pairT) by (intros k Hk; apply in_range in Hk; apply node_where_ok; exact Hk). cbn [bind]. rewrite longueur_eq, mapM_map.
  apply mapM_ok. intros k Hk. apply in_range in Hk. unfold pairT, halo_row. destruct (named k) eqn:En.
  - apply node_row_ok. apply longueur_ge; assumption.
  - rewrite node_row_ok by (change (zlen [-1]) with 1; lia). change (zlen [-1]) with 1. change (zlen (@nil Z)) with 0. f_equal.
    replace (Z.to_nat (longueur - 0)) with (S (Z.to_nat (longueur - 1))) by lia. reflexivity.
Qed.
Lemma node_halonid_err : (forall k, 0 <= k < nbn -> nthZ 0 nodename k <> 10) -> 0 < nbn -> node_halonid dim halosext loctoglob nodename nbn = Err IndexError.
Proof.
  intros Hno Hn. unfold node_halonid. rewrite (mapM_ok _ pairT) by (intros k Hk; apply in_range in Hk; apply node_where_ok; exact Hk). cbn [bind]. rewrite longueur_eq, mapM_map.
  assert (Hnamed : forall k, In k (range nbn) -> named k = false) by (intros k Hk; apply in_range in Hk; unfold named; specialize (Hno k Hk); lia).
  replace longueur with 0 by (symmetry; apply fold_max_zero; exact Hnamed).
  assert (R : forall k, In k (range nbn) -> node_row 0 (pairT k) = Err IndexError) by (intros k Hk; unfold pairT; rewrite Hnamed by exact Hk; reflexivity).
  apply mapM_err; [intros k Hk; right; apply R; exact Hk|]. exists 0. assert (In 0 (range nbn)) by (apply in_range; lia). split; [assumption | apply R; assumption].
Qed.

(** cells *)
Context (cells : list (list Z)).
Hypothesis WC : wf_mesh dim nbn cells.
Definition Wk (k : Z) : list Z := if named k then Wn k else [].
Lemma get_last (l : list Z) c : get (l ++ [c]) (-1) = Ok c.
Proof.
  rewrite (get_wrap 0) by (rewrite zlen_app; change (zlen [c]) with 1; pose proof (zlen_nonneg l); lia). f_equal. rewrite zlen_app. change (zlen [c]) with 1.
  replace (-1 + (zlen l + 1)) with (zlen l) by lia. apply nthZ_app_last.
Qed.
Lemma firstn_zlen {A} (a b : list A) : firstn (Z.to_nat (zlen a)) (a ++ b) = a.
Proof. unfold zlen. rewrite Nat2Z.id. rewrite firstn_app, Nat.sub_diag, firstn_all. cbn. apply app_nil_r. Qed.

Lemma cell_halo_ok c : iscell cells c -> cell_halo dim (map halo_row (range nbn)) cells c = Ok (np_unique (flat_map Wk (cell cells c))).
Proof.
  intros Hc. unfold cell_halo. destruct (wm_rows _ _ _ WC (cell cells c)) as (HL & _ & Hr); [apply nthZ_In; exact Hc|].
  rewrite (foldM_ext _ (fun l j => do nod <- get (cell cells c) j; (fun l nod => ret (l ++ Wk nod)) l nod)).
  - rewrite (foldM_range_get (fun l nod => ret (l ++ Wk nod)) (cell cells c) (dim + 1)) by (symmetry; exact HL).
    assert (G : forall ns l, foldM (fun l nod => ret (l ++ Wk nod)) ns l = Ok (l ++ flat_map Wk ns)).
    { induction ns as [|x ns IH]; intros l; cbn; [rewrite app_nil_r; reflexivity|]. rewrite IH, <- app_assoc. reflexivity. }
    rewrite G. reflexivity.
  - intros l j Hj. apply in_range in Hj. unfold get2. rewrite (get_nthZ []) by exact Hc. cbn [bind]. fold (cell cells c). rewrite (get_nthZ 0) by lia. cbn [bind].
    set (k := nthZ 0 (cell cells c) j). assert (Hk : 0 <= k < nbn) by (apply Hr, nthZ_In; lia).
    rewrite get_map_range by exact Hk. cbn [bind]. unfold halo_row. fold (Wk k). rewrite app_assoc, get_last. cbn [bind]. rewrite <- app_assoc. rewrite firstn_zlen. reflexivity.
Qed.
Definition Uc (c : Z) : list Z := np_unique (flat_map Wk (cell cells c)).
Lemma cell_halonid_ok : exists m, cell_halonid dim (map halo_row (range nbn)) cells (zlen cells)
   = Ok (map (fun c => Uc c ++ repeat (-1) (Z.to_nat (m - zlen (Uc c))) ++ [zlen (Uc c)]) (range (zlen cells))) /\ forall c, iscell cells c -> zlen (Uc c) <= m.
Proof.
  unfold cell_halonid. rewrite (mapM_ok _ Uc) by (intros c Hc; apply in_range in Hc; apply cell_halo_ok; exact Hc). cbn [bind].
  exists (fold_left (fun m r => Z.max m (zlen r)) (map Uc (range (zlen cells))) 0). split; [rewrite map_map; reflexivity|].
  intros c Hc. apply (fold_max_in zlen (fun _ => true)); [|reflexivity]. apply in_map, in_range. exact Hc.
Qed.
End Tables.
