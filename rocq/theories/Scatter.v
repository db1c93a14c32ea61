(** * Scatter: loops that read-modify-write one entry of an array per iteration.
    [scatter g pairs s] performs, for each (label, index) in order, s[index] = g(s[index], label). *)
From Verif Require Import Py PyLemmas.
From Coq Require Import Permutation Sorting.Sorted.

Section Scatter.
Context {A X : Type} (d : A) (g : A -> X -> A).

Definition scat_step (s : list A) (p : X * Z) : res (list A) :=
  do x <- get s (snd p); set s (snd p) (g x (fst p)).

Definition labels_at (f : Z) (pairs : list (X * Z)) : list X := map fst (filter (fun p => snd p =? f) pairs).

Lemma labels_at_app f p q : labels_at f (p ++ q) = labels_at f p ++ labels_at f q.
Proof. unfold labels_at. rewrite filter_app, map_app. reflexivity. Qed.

Lemma scat_step_ok s x i : 0 <= i < zlen s -> scat_step s (x, i) = Ok (upd s i (g (nthZ d s i) x)).
Proof. intros H. unfold scat_step; cbn. rewrite (get_nthZ d) by exact H. cbn. apply set_upd; exact H. Qed.

Lemma scat_spec pairs s0 :
  (forall p, In p pairs -> 0 <= snd p < zlen s0) ->
  exists s, foldM scat_step pairs s0 = Ok s /\ zlen s = zlen s0 /\
    forall f, 0 <= f < zlen s0 -> nthZ d s f = fold_left g (labels_at f pairs) (nthZ d s0 f).
Proof.
  revert s0; induction pairs as [|[l i] pairs IH]; intros s0 H; cbn.
  - exists s0. auto.
  - pose proof (H _ (or_introl eq_refl)) as Hi; cbn in Hi.
    unfold scat_step; cbn. rewrite (get_nthZ d) by exact Hi. cbn. rewrite set_upd by exact Hi. cbn.
    destruct (IH (upd s0 i (g (nthZ d s0 i) l))) as (s & E & HL & HS).
    { intros p Hp. rewrite zlen_upd. apply H; right; exact Hp. }
    exists s. split; [exact E|]. rewrite zlen_upd in *. split; [exact HL|]. intros f Hf. rewrite HS by exact Hf.
    rewrite nthZ_upd by lia. unfold labels_at; cbn. rewrite (Z.eqb_sym f i). destruct (Z.eqb_spec i f); cbn; [subst; reflexivity | reflexivity].
Qed.
End Scatter.

(** nested loops: for each x in xs, for each index in rows x *)
Definition pairs_of {X} (rows : X -> list Z) (xs : list X) : list (X * Z) := flat_map (fun x => map (fun k => (x, k)) (rows x)) xs.

Lemma foldM_nested {S X Y} (f : S -> X * Y -> res S) (rows : X -> list Y) xs s :
  foldM (fun s x => foldM (fun s k => f s (x, k)) (rows x) s) xs s
  = foldM f (flat_map (fun x => map (fun k => (x, k)) (rows x)) xs) s.
Proof.
  revert s; induction xs as [|x xs IH]; intros s; cbn; [reflexivity|].
  rewrite foldM_app, foldM_map. destruct (foldM _ (rows x) s); cbn; [apply IH|reflexivity].
Qed.

Lemma labels_pairs_of {X} (rows : X -> list Z) xs f :
  (forall x, In x xs -> NoDup (rows x)) ->
  labels_at f (pairs_of rows xs) = filter (fun x => mem f (rows x)) xs.
Proof.
  induction xs as [|x xs IH]; intros H; [reflexivity|].
  unfold pairs_of; cbn [flat_map filter]; fold (pairs_of rows xs).
  rewrite labels_at_app, IH by (intros; apply H; right; assumption).
  assert (E : labels_at f (map (fun k => (x, k)) (rows x)) = if mem f (rows x) then [x] else []).
  { specialize (H x (or_introl eq_refl)). induction (rows x) as [|k l IHl]; cbn; [reflexivity|].
    apply NoDup_cons_iff in H as (Hk & Hn). unfold labels_at in *; cbn. destruct (Z.eqb_spec k f) as [->|Hne]; cbn.
    - rewrite IHl by exact Hn. apply mem_not_In in Hk. rewrite Hk, Z.eqb_refl. reflexivity.
    - rewrite IHl by exact Hn. unfold mem; cbn. destruct (Z.eqb_spec f k); [congruence|]. reflexivity. }
  rewrite E. destruct (mem f (rows x)); reflexivity.
Qed.

(** when each row may repeat an index but g is idempotent for equal labels *)
Lemma fold_labels_idem {A X} (g : A -> X -> A) (rows : X -> list Z) xs f a :
  (forall a x, g (g a x) x = g a x) ->
  fold_left g (labels_at f (pairs_of rows xs)) a = fold_left g (filter (fun x => mem f (rows x)) xs) a.
Proof.
  intros Hg. revert a; induction xs as [|x xs IH]; intros a; [reflexivity|].
  unfold pairs_of; cbn [flat_map filter]; fold (pairs_of rows xs).
  rewrite labels_at_app, fold_left_app, IH.
  assert (E : forall a, fold_left g (labels_at f (map (fun k => (x, k)) (rows x))) a = if mem f (rows x) then g a x else a).
  { clear -Hg. induction (rows x) as [|k l IHl]; intros a; cbn; [reflexivity|].
    unfold labels_at in *; cbn. unfold mem; cbn. rewrite (Z.eqb_sym f k). destruct (Z.eqb_spec k f); cbn.
    - rewrite IHl. destruct (mem f l); [apply Hg|reflexivity].
    - apply IHl. }
  rewrite E. destruct (mem f (rows x)); reflexivity.
Qed.

(** each iteration i rewrites entry i only *)
Lemma foldM_pointwise {A} (d : A) (F : Z -> A -> res A) (g : Z -> A) n s0 :
  zlen s0 = n ->
  (forall i, 0 <= i < n -> F i (nthZ d s0 i) = Ok (g i)) ->
  foldM (fun s i => do x <- get s i; do y <- F i x; set s i y) (range n) s0 = Ok (map g (range n)).
Proof.
  intros HL HF.
  pose proof (zlen_nonneg s0) as Hn0.
  destruct (foldM_range_inv (fun k s => zlen s = n /\ (forall i, 0 <= i < k -> nthZ d s i = g i) /\ forall i, k <= i < n -> nthZ d s i = nthZ d s0 i)
              (fun s i => do x <- get s i; do y <- F i x; set s i y) n s0) as (s & E & I1 & I2 & _).
  - lia.
  - split; [exact HL|]. split; [lia|]. reflexivity.
  - intros k s Hk (L & A1 & A2). rewrite (get_nthZ d) by lia. cbn. rewrite A2 by lia. rewrite HF by lia. cbn.
    rewrite set_upd by lia. eexists; split; [reflexivity|]. rewrite zlen_upd. split; [exact L|]. split.
    + intros i Hi. rewrite nthZ_upd by lia. destruct (Z.eqb_spec i k); [subst; reflexivity|]. apply A1; lia.
    + intros i Hi. rewrite nthZ_upd_neq by lia. apply A2; lia.
  - rewrite E. f_equal. apply (nthZ_ext d).
    + rewrite zlen_map, zlen_range by lia. exact I1.
    + intros i Hi. rewrite (nthZ_map _ 0) by (rewrite zlen_range; lia). rewrite nthZ_range by lia. apply I2; lia.
Qed.
