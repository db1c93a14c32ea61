(** * PyLemmas: facts about the Python fragment of [Py]. *)
From Verif Require Import Py.
From Coq Require Import ZifyBool Sorting.Sorted Permutation.

(** ** bind *)
Lemma bind_ok {A B} (m : res A) (k : A -> res B) b :
  bind m k = Ok b -> exists a, m = Ok a /\ k a = Ok b.
Proof. destruct m as [a|e]; cbn; [eauto | discriminate]. Qed.

Lemma bind_ok_l {A B} (a : A) (k : A -> res B) : bind (Ok a) k = k a.
Proof. reflexivity. Qed.

Lemma bind_assoc {A B C} (m : res A) (f : A -> res B) (g : B -> res C) :
  bind (bind m f) g = bind m (fun a => bind (f a) g).
Proof. destruct m; reflexivity. Qed.

(** ** lengths, ranges *)
Lemma zlen_nonneg {A} (l : list A) : 0 <= zlen l.
Proof. unfold zlen; lia. Qed.

Lemma zlen_nil {A} : zlen (@nil A) = 0.
Proof. reflexivity. Qed.

Lemma zlen_cons {A} (a : A) l : zlen (a :: l) = zlen l + 1.
Proof. unfold zlen; cbn [length]; lia. Qed.

Lemma zlen_app {A} (a b : list A) : zlen (a ++ b) = zlen a + zlen b.
Proof. unfold zlen; rewrite app_length; lia. Qed.

Lemma zlen_map {A B} (f : A -> B) l : zlen (map f l) = zlen l.
Proof. unfold zlen; rewrite map_length; reflexivity. Qed.

Lemma zlen_repeat {A} (a : A) n : zlen (repeat a n) = Z.of_nat n.
Proof. unfold zlen; rewrite repeat_length; reflexivity. Qed.

Lemma zlen_range n : 0 <= n -> zlen (range n) = n.
Proof. intros; unfold zlen, range; rewrite map_length, seq_length; lia. Qed.

Lemma in_range n i : In i (range n) <-> 0 <= i < n.
Proof.
  unfold range; rewrite in_map_iff; split.
  - intros (k & <- & Hk); apply in_seq in Hk; lia.
  - intros H; exists (Z.to_nat i); split; [lia | apply in_seq; lia].
Qed.

Lemma range_neg n : n <= 0 -> range n = [].
Proof. intros; unfold range; replace (Z.to_nat n) with O by lia; reflexivity. Qed.

Lemma range_succ n : 0 <= n -> range (n + 1) = range n ++ [n].
Proof.
  intros; unfold range.
  replace (Z.to_nat (n + 1)) with (S (Z.to_nat n)) by lia.
  rewrite seq_S, map_app; cbn; do 2 f_equal; lia.
Qed.

Lemma NoDup_range n : NoDup (range n).
Proof.
  unfold range; apply FinFun.Injective_map_NoDup; [intros a b; lia | apply seq_NoDup].
Qed.

Lemma Sorted_lt_range n : StronglySorted Z.lt (range n).
Proof.
  unfold range. generalize 0%nat as s. induction (Z.to_nat n) as [|m IH]; intros s; cbn.
  - constructor.
  - constructor; [apply IH|]. rewrite Forall_forall; intros x Hx.
    apply in_map_iff in Hx as (k & <- & Hk); apply in_seq in Hk; lia.
Qed.

(** ** get / set *)
Lemma nthZ_0 {A} (d : A) x l : nthZ d (x :: l) 0 = x.
Proof. reflexivity. Qed.

Lemma nthZ_cons {A} (d : A) x l i : 0 < i -> nthZ d (x :: l) i = nthZ d l (i - 1).
Proof.
  intros; unfold nthZ. replace (Z.to_nat i) with (S (Z.to_nat (i - 1))) by lia. reflexivity.
Qed.

Lemma nthZ_app_l {A} (d : A) l1 l2 i : 0 <= i < zlen l1 -> nthZ d (l1 ++ l2) i = nthZ d l1 i.
Proof. unfold nthZ, zlen; intros; apply app_nth1; lia. Qed.

Lemma nthZ_app_r {A} (d : A) l1 l2 i :
  zlen l1 <= i -> nthZ d (l1 ++ l2) i = nthZ d l2 (i - zlen l1).
Proof.
  unfold nthZ, zlen; intros; rewrite app_nth2 by lia. f_equal; lia.
Qed.

Lemma nthZ_app_last {A} (d : A) l x : nthZ d (l ++ [x]) (zlen l) = x.
Proof. rewrite nthZ_app_r by lia. rewrite Z.sub_diag; reflexivity. Qed.

Lemma nthZ_In {A} (d : A) l i : 0 <= i < zlen l -> In (nthZ d l i) l.
Proof. unfold nthZ, zlen; intros; apply nth_In; lia. Qed.

Lemma In_nthZ {A} (d : A) l x : In x l -> exists i, 0 <= i < zlen l /\ nthZ d l i = x.
Proof.
  intros H; apply (In_nth _ _ d) in H as (n & Hn & <-).
  exists (Z.of_nat n); unfold zlen, nthZ; split; [lia|]. rewrite Nat2Z.id; reflexivity.
Qed.

Lemma nthZ_map {A B} (f : A -> B) dA dB l i :
  0 <= i < zlen l -> nthZ dB (map f l) i = f (nthZ dA l i).
Proof.
  unfold nthZ, zlen; intros.
  rewrite (nth_indep _ dB (f dA)) by (rewrite map_length; lia). apply map_nth.
Qed.

Lemma nthZ_range d n i : 0 <= i < n -> nthZ d (range n) i = i.
Proof.
  intros; unfold nthZ, range.
  rewrite (nth_indep _ d (Z.of_nat 0)) by (rewrite map_length, seq_length; lia).
  rewrite map_nth, seq_nth by lia. lia.
Qed.

Lemma nthZ_repeat {A} (d a : A) n i : 0 <= i < Z.of_nat n -> nthZ d (repeat a n) i = a.
Proof.
  intros; unfold nthZ. assert (Hl : (Z.to_nat i < n)%nat) by lia.
  revert Hl. generalize (Z.to_nat i) as k. clear.
  induction n as [|n IH]; intros k Hk; [lia|]. destruct k; cbn; [reflexivity|]. apply IH; lia.
Qed.

Lemma nthZ_ext {A} (d : A) l1 l2 :
  zlen l1 = zlen l2 -> (forall i, 0 <= i < zlen l1 -> nthZ d l1 i = nthZ d l2 i) -> l1 = l2.
Proof.
  intros Hl Hn; apply (nth_ext _ _ d d); [unfold zlen in *; lia|].
  intros n Hlt; specialize (Hn (Z.of_nat n)); unfold nthZ, zlen in *.
  rewrite Nat2Z.id in Hn; apply Hn; lia.
Qed.

Lemma nthZ_indep {A} (d d' : A) l i : 0 <= i < zlen l -> nthZ d l i = nthZ d' l i.
Proof. unfold nthZ, zlen; intros; apply nth_indep; lia. Qed.

Lemma get_nthZ {A} (d : A) l i : 0 <= i < zlen l -> get l i = Ok (nthZ d l i).
Proof.
  unfold get, nthZ, zlen; intros H.
  destruct (Z.ltb_spec i 0); [lia|]. destruct (Z.ltb_spec i 0); [lia|].
  rewrite (nth_error_nth' l d) by lia. reflexivity.
Qed.

Lemma get_wrap {A} (d : A) l i :
  - zlen l <= i < 0 -> get l i = Ok (nthZ d l (i + zlen l)).
Proof.
  unfold get; intros H. destruct (Z.ltb_spec i 0); [|lia].
  destruct (Z.ltb_spec (i + zlen l) 0); [lia|].
  unfold nthZ, zlen in *. rewrite (nth_error_nth' l d) by lia. reflexivity.
Qed.

Lemma get_ok_inv {A} (l : list A) i x :
  0 <= i -> get l i = Ok x -> i < zlen l /\ (forall d, nthZ d l i = x).
Proof.
  unfold get; intros Hi. destruct (Z.ltb_spec i 0); [lia|]. destruct (Z.ltb_spec i 0); [lia|].
  destruct (nth_error l (Z.to_nat i)) eqn:E; [|discriminate]. intros [= ->].
  split.
  - assert (nth_error l (Z.to_nat i) <> None) as Hs by congruence.
    apply nth_error_Some in Hs. unfold zlen; lia.
  - intros d; unfold nthZ; apply nth_error_nth; exact E.
Qed.

Lemma length_list_set {A} (l : list A) n v : length (list_set l n v) = length l.
Proof. revert n; induction l as [|x l IH]; intros [|n]; cbn; auto. Qed.

Lemma zlen_upd {A} (l : list A) i v : zlen (upd l i v) = zlen l.
Proof. unfold zlen, upd; rewrite length_list_set; reflexivity. Qed.

Lemma nth_list_set_eq {A} (d : A) l n v : (n < length l)%nat -> nth n (list_set l n v) d = v.
Proof. revert n; induction l as [|x l IH]; intros [|n] H; cbn in *; try lia; auto. apply IH; lia. Qed.

Lemma nth_list_set_neq {A} (d : A) l n m v : n <> m -> nth m (list_set l n v) d = nth m l d.
Proof.
  revert n m; induction l as [|x l IH]; intros [|n] [|m] H; cbn; try congruence; auto.
Qed.

Lemma nthZ_upd_eq {A} (d : A) l i v : 0 <= i < zlen l -> nthZ d (upd l i v) i = v.
Proof. unfold nthZ, upd, zlen; intros; apply nth_list_set_eq; lia. Qed.

Lemma nthZ_upd_neq {A} (d : A) l i j v : 0 <= i -> 0 <= j -> i <> j -> nthZ d (upd l i v) j = nthZ d l j.
Proof. unfold nthZ, upd; intros; apply nth_list_set_neq; lia. Qed.

Lemma nthZ_upd {A} (d : A) l i j v : 0 <= i < zlen l -> 0 <= j ->
  nthZ d (upd l i v) j = if j =? i then v else nthZ d l j.
Proof.
  intros; destruct (Z.eqb_spec j i) as [->|]; [apply nthZ_upd_eq | apply nthZ_upd_neq]; lia.
Qed.

Lemma set_upd {A} (l : list A) i v : 0 <= i < zlen l -> set l i v = Ok (upd l i v).
Proof.
  unfold set, upd; intros. destruct (Z.ltb_spec i 0); [lia|].
  destruct (Z.ltb_spec i 0); [lia|]. destruct (Z.leb_spec (zlen l) i); [lia|]. reflexivity.
Qed.

Lemma upd_same {A} (d : A) l i : 0 <= i < zlen l -> upd l i (nthZ d l i) = l.
Proof.
  intros; apply (nthZ_ext d); rewrite zlen_upd; [reflexivity|].
  intros j Hj; rewrite nthZ_upd by lia. destruct (Z.eqb_spec j i); congruence.
Qed.

Lemma append_at_upd {A} (l : list (list A)) i v :
  0 <= i < zlen l -> append_at l i v = Ok (upd l i (nthZ [] l i ++ [v])).
Proof. intros; unfold append_at; rewrite (get_nthZ []) by lia; cbn; apply set_upd; lia. Qed.

Lemma extend_at_upd {A} (l : list (list A)) i v :
  0 <= i < zlen l -> extend_at l i v = Ok (upd l i (nthZ [] l i ++ v)).
Proof. intros; unfold extend_at; rewrite (get_nthZ []) by lia; cbn; apply set_upd; lia. Qed.

(** ** loops *)
Lemma foldM_app {S X} (f : S -> X -> res S) l1 l2 s :
  foldM f (l1 ++ l2) s = bind (foldM f l1 s) (foldM f l2).
Proof.
  revert s; induction l1 as [|x l1 IH]; intros s; cbn; [reflexivity|].
  destruct (f s x); cbn; auto.
Qed.

(** total-correctness rule: [I done s] *)
Lemma foldM_inv {S X} (I : list X -> S -> Prop) (f : S -> X -> res S) l s0 :
  I [] s0 ->
  (forall done x rest s, l = done ++ x :: rest -> I done s -> exists s', f s x = Ok s' /\ I (done ++ [x]) s') ->
  exists s', foldM f l s0 = Ok s' /\ I l s'.
Proof.
  intros H0 Hs.
  assert (G : forall rest done s, l = done ++ rest -> I done s ->
              exists s', foldM f rest s = Ok s' /\ I l s').
  { induction rest as [|x rest IH]; intros done s Hl Hi.
    - exists s; cbn; split; [reflexivity|]. rewrite Hl, app_nil_r; exact Hi.
    - destruct (Hs done x rest s Hl Hi) as (s' & E & Hi').
      cbn; rewrite E; cbn. apply (IH (done ++ [x])); [rewrite <- app_assoc; exact Hl | exact Hi']. }
  apply (G l []); auto.
Qed.

Lemma foldM_range_inv {S} (I : Z -> S -> Prop) (f : S -> Z -> res S) n s0 :
  0 <= n -> I 0 s0 ->
  (forall i s, 0 <= i < n -> I i s -> exists s', f s i = Ok s' /\ I (i + 1) s') ->
  exists s', foldM f (range n) s0 = Ok s' /\ I n s'.
Proof.
  intros Hn H0 Hs.
  assert (G : forall m, (Z.of_nat m <= n) -> exists s', foldM f (range (Z.of_nat m)) s0 = Ok s' /\ I (Z.of_nat m) s').
  { induction m as [|m IH]; intros Hm.
    - exists s0; split; [reflexivity | exact H0].
    - destruct IH as (s1 & E1 & I1); [lia|].
      destruct (Hs (Z.of_nat m) s1) as (s2 & E2 & I2); [lia | exact I1 |].
      exists s2. replace (Z.of_nat (Datatypes.S m)) with (Z.of_nat m + 1) by lia.
      rewrite range_succ by lia. rewrite foldM_app, E1. cbn. rewrite E2. cbn. auto. }
  specialize (G (Z.to_nat n)). rewrite Z2Nat.id in G by lia. apply G; lia.
Qed.

(** partial-correctness rule *)
Lemma foldM_ok_inv {S X} (I : list X -> S -> Prop) (f : S -> X -> res S) l s0 s1 :
  foldM f l s0 = Ok s1 -> I [] s0 ->
  (forall done x rest s s', l = done ++ x :: rest -> I done s -> f s x = Ok s' -> I (done ++ [x]) s') ->
  I l s1.
Proof.
  intros E H0 Hs.
  assert (G : forall rest done s, l = done ++ rest -> I done s -> foldM f rest s = Ok s1 -> I l s1).
  { induction rest as [|x rest IH]; intros done s Hl Hi Ef.
    - cbn in Ef; injection Ef as ->. rewrite Hl, app_nil_r; exact Hi.
    - cbn in Ef. apply bind_ok in Ef as (s' & E1 & E2).
      apply (IH (done ++ [x]) s'); [rewrite <- app_assoc; exact Hl | eapply Hs; eauto | exact E2]. }
  apply (G l [] s0); auto.
Qed.

(** loops whose body never fails are plain folds *)
Lemma foldM_pure {S X} (g : S -> X -> S) (f : S -> X -> res S) l s :
  (forall s x, In x l -> f s x = Ok (g s x)) -> foldM f l s = Ok (fold_left g l s).
Proof.
  revert s; induction l as [|x l IH]; intros s H; cbn; [reflexivity|].
  rewrite H by (left; reflexivity). cbn. apply IH; intros; apply H; right; assumption.
Qed.

Lemma foldM_ext {S X} (f g : S -> X -> res S) l s :
  (forall s x, In x l -> f s x = g s x) -> foldM f l s = foldM g l s.
Proof.
  revert s; induction l as [|x l IH]; intros s H; cbn; [reflexivity|].
  rewrite H by (left; reflexivity). destruct (g s x); cbn; [|reflexivity].
  apply IH; intros; apply H; right; assumption.
Qed.

Lemma mapM_ok {X Y} (f : X -> res Y) (g : X -> Y) l :
  (forall x, In x l -> f x = Ok (g x)) -> mapM f l = Ok (map g l).
Proof.
  induction l as [|x l IH]; intros H; cbn; [reflexivity|].
  rewrite H by (left; reflexivity); cbn. rewrite IH by (intros; apply H; right; assumption). reflexivity.
Qed.

Lemma mapM_inv {X Y} (f : X -> res Y) l r :
  mapM f l = Ok r -> Forall2 (fun x y => f x = Ok y) l r.
Proof.
  revert r; induction l as [|x l IH]; intros r E; cbn in E.
  - injection E as <-; constructor.
  - apply bind_ok in E as (y & E1 & E). apply bind_ok in E as (r' & E2 & E). injection E as <-.
    constructor; auto.
Qed.

(** ** mem *)
Lemma mem_In x l : mem x l = true <-> In x l.
Proof.
  unfold mem; rewrite existsb_exists; split.
  - intros (y & Hy & E); apply Z.eqb_eq in E; subst; assumption.
  - intros H; exists x; split; [assumption | apply Z.eqb_refl].
Qed.
Lemma mem_not_In x l : mem x l = false <-> ~ In x l.
Proof. rewrite <- mem_In; destruct (mem x l); split; congruence. Qed.
Lemma mem_spec x l : reflect (In x l) (mem x l).
Proof. apply iff_reflect; symmetry; apply mem_In. Qed.

(** ** numpy.unique, numpy.sort *)
Lemma ins_In x y l : In y (ins x l) <-> y = x \/ In y l.
Proof.
  induction l as [|z l IH]; cbn; [intuition|].
  destruct (Z.ltb_spec x z); cbn; [intuition|].
  destruct (Z.eqb_spec x z); cbn; [subst; intuition | rewrite IH; intuition].
Qed.
Lemma np_unique_In x l : In x (np_unique l) <-> In x l.
Proof.
  induction l as [|y l IH]; cbn; [tauto|]. rewrite ins_In, IH; intuition.
Qed.
Lemma ins_sorted x l : StronglySorted Z.lt l -> StronglySorted Z.lt (ins x l).
Proof.
  induction l as [|y l IH]; intros H; cbn.
  - constructor; constructor.
  - inversion H as [|? ? Hs Hf]; subst.
    destruct (Z.ltb_spec x y).
    + constructor; [assumption|]. constructor; [assumption|].
      rewrite Forall_forall in *; intros z Hz; specialize (Hf z Hz); lia.
    + destruct (Z.eqb_spec x y); [assumption|].
      constructor; [auto|]. rewrite Forall_forall in *; intros z Hz.
      apply ins_In in Hz as [->|Hz]; [lia | auto].
Qed.
Lemma np_unique_sorted l : StronglySorted Z.lt (np_unique l).
Proof. induction l; cbn; [constructor | apply ins_sorted; assumption]. Qed.

Lemma sorted_lt_NoDup l : StronglySorted Z.lt l -> NoDup l.
Proof.
  induction 1 as [|x l Hs IH Hf]; constructor; [|assumption].
  rewrite Forall_forall in Hf; intros Hin; specialize (Hf x Hin); lia.
Qed.
Lemma np_unique_NoDup l : NoDup (np_unique l).
Proof. apply sorted_lt_NoDup, np_unique_sorted. Qed.

Lemma sorted_lt_unique l1 l2 :
  StronglySorted Z.lt l1 -> StronglySorted Z.lt l2 ->
  (forall x, In x l1 <-> In x l2) -> l1 = l2.
Proof.
  revert l2; induction l1 as [|x l1 IH]; intros l2 H1 H2 H.
  - destruct l2 as [|y l2]; [reflexivity|]. exfalso. apply (H y). left; reflexivity.
  - destruct l2 as [|y l2]; [exfalso; apply (H x); left; reflexivity|].
    inversion H1 as [|? ? Hs1 Hf1]; inversion H2 as [|? ? Hs2 Hf2]; subst.
    rewrite Forall_forall in *.
    assert (x = y).
    { destruct (proj1 (H x) (or_introl eq_refl)) as [|Hx]; [congruence|].
      destruct (proj2 (H y) (or_introl eq_refl)) as [|Hy]; [congruence|].
      specialize (Hf1 _ Hy); specialize (Hf2 _ Hx); lia. }
    subst y; f_equal; apply IH; auto.
    intros z; split; intros Hz.
    + destruct (proj1 (H z) (or_intror Hz)) as [<-|]; [|assumption]. specialize (Hf1 _ Hz); lia.
    + destruct (proj2 (H z) (or_intror Hz)) as [<-|]; [|assumption]. specialize (Hf2 _ Hz); lia.
Qed.

Lemma np_unique_of_sorted l : StronglySorted Z.lt l -> np_unique l = l.
Proof.
  intros H; apply sorted_lt_unique; [apply np_unique_sorted | assumption | intros x; apply np_unique_In].
Qed.

Lemma ins_dup_perm x l : Permutation (ins_dup x l) (x :: l).
Proof.
  induction l as [|y l IH]; cbn; [reflexivity|].
  destruct (x <=? y); [reflexivity|]. rewrite IH. apply perm_swap.
Qed.
Lemma np_sort_perm l : Permutation (np_sort l) l.
Proof. induction l as [|x l IH]; cbn; [reflexivity|]. rewrite ins_dup_perm, IH. reflexivity. Qed.
Lemma ins_dup_sorted x l : StronglySorted Z.le l -> StronglySorted Z.le (ins_dup x l).
Proof.
  induction l as [|y l IH]; intros H; cbn.
  - constructor; constructor.
  - inversion H as [|? ? Hs Hf]; subst. destruct (Z.leb_spec x y).
    + constructor; [assumption|]. constructor; [assumption|].
      rewrite Forall_forall in *; intros z Hz; specialize (Hf z Hz); lia.
    + constructor; [auto|]. rewrite Forall_forall in *; intros z Hz.
      apply (Permutation_in _ (ins_dup_perm x l)) in Hz. destruct Hz as [<-|Hz]; [lia | auto].
Qed.
Lemma np_sort_sorted l : StronglySorted Z.le (np_sort l).
Proof. induction l; cbn; [constructor | apply ins_dup_sorted; assumption]. Qed.
Lemma sorted_le_unique l1 l2 :
  StronglySorted Z.le l1 -> StronglySorted Z.le l2 -> Permutation l1 l2 -> l1 = l2.
Proof.
  revert l2; induction l1 as [|x l1 IH]; intros l2 H1 H2 HP.
  - apply Permutation_nil in HP; subst; reflexivity.
  - destruct l2 as [|y l2]; [apply Permutation_sym, Permutation_nil in HP; discriminate|].
    inversion H1 as [|? ? Hs1 Hf1]; inversion H2 as [|? ? Hs2 Hf2]; subst.
    rewrite Forall_forall in *.
    assert (x = y).
    { assert (Hx : In x (y :: l2)) by (eapply Permutation_in; [exact HP | left; reflexivity]).
      assert (Hy : In y (x :: l1)) by (eapply Permutation_in; [apply Permutation_sym; exact HP | left; reflexivity]).
      destruct Hx as [|Hx]; [congruence|]. destruct Hy as [|Hy]; [congruence|].
      specialize (Hf1 _ Hy); specialize (Hf2 _ Hx); lia. }
    subst y; f_equal; apply IH; auto. eapply Permutation_cons_inv; exact HP.
Qed.
Lemma np_sort_perm_eq l1 l2 : Permutation l1 l2 -> np_sort l1 = np_sort l2.
Proof.
  intros H; apply sorted_le_unique; try apply np_sort_sorted.
  rewrite np_sort_perm, H; symmetry; apply np_sort_perm.
Qed.
Lemma zlen_np_sort l : zlen (np_sort l) = zlen l.
Proof. unfold zlen; rewrite (Permutation_length (np_sort_perm l)); reflexivity. Qed.
Lemma np_sort_In x l : In x (np_sort l) <-> In x l.
Proof. split; apply Permutation_in; [|symmetry]; apply np_sort_perm. Qed.

(** ** dictionaries *)
Lemma key2_eqb_spec a b : reflect (a = b) (key2_eqb a b).
Proof.
  unfold key2_eqb; destruct a as [a1 a2], b as [b1 b2]; cbn.
  destruct (Z.eqb_spec a1 b1), (Z.eqb_spec a2 b2); cbn; constructor; congruence.
Qed.
Lemma key2_eqb_refl a : key2_eqb a a = true.
Proof. destruct (key2_eqb_spec a a); congruence. Qed.
Lemma dget_opt_dset {V} (d : dict2 V) k k' v :
  dget_opt (dset d k v) k' = if key2_eqb k k' then Some v else dget_opt d k'.
Proof.
  induction d as [|[k1 v1] d IH]; cbn; [reflexivity|].
  destruct (key2_eqb_spec k1 k); cbn.
  - subst; destruct (key2_eqb k k'); reflexivity.
  - destruct (key2_eqb_spec k1 k'); [|exact IH].
    subst; destruct (key2_eqb_spec k k'); [congruence | reflexivity].
Qed.
(** value of a [setdefault(k, []).append] dictionary, with absent = empty *)
Definition dlist {A} (d : dict2 (list A)) k : list A :=
  match dget_opt d k with Some l => l | None => [] end.
Lemma dlist_dappend {A} (d : dict2 (list A)) k k' x :
  dlist (dappend d k x) k' = if key2_eqb k k' then dlist d k' ++ [x] else dlist d k'.
Proof.
  unfold dlist, dappend. destruct (dget_opt d k) eqn:E; rewrite dget_opt_dset;
    destruct (key2_eqb_spec k k'); subst; rewrite ?E; reflexivity.
Qed.
Lemma dget_opt_dappend_Some {A} (d : dict2 (list A)) k k' x :
  dget_opt (dappend d k x) k' = if key2_eqb k k' then Some (dlist d k' ++ [x]) else dget_opt d k'.
Proof.
  unfold dlist, dappend. destruct (dget_opt d k) eqn:E; rewrite dget_opt_dset;
    destruct (key2_eqb_spec k k'); subst; rewrite ?E; reflexivity.
Qed.

(** an index loop over a list that only reads [l[j]] is a loop over its elements *)
Lemma range_S_shift n : 0 <= n -> range (n + 1) = 0 :: map (fun k => k + 1) (range n).
Proof.
  intros; unfold range. replace (Z.to_nat (n + 1)) with (S (Z.to_nat n)) by lia.
  cbn [seq map]. f_equal. rewrite <- seq_shift, !map_map. apply map_ext; intros; lia.
Qed.

Lemma foldM_map {S X Y} (f : S -> Y -> res S) (g : X -> Y) l s :
  foldM f (map g l) s = foldM (fun s x => f s (g x)) l s.
Proof. revert s; induction l as [|x l IH]; intros s; cbn; [reflexivity|]. destruct (f s (g x)); cbn; auto. Qed.

Lemma mapM_map {X Y W} (f : Y -> res W) (g : X -> Y) l :
  mapM f (map g l) = mapM (fun x => f (g x)) l.
Proof. induction l as [|x l IH]; cbn; [reflexivity|]. rewrite IH; reflexivity. Qed.

Lemma mapM_ext {X Y} (f g : X -> res Y) l :
  (forall x, In x l -> f x = g x) -> mapM f l = mapM g l.
Proof.
  induction l as [|x l IH]; intros H; cbn; [reflexivity|].
  rewrite H by (left; reflexivity). rewrite IH by (intros; apply H; right; assumption). reflexivity.
Qed.

Lemma map_nthZ_range {A} (d : A) l : map (nthZ d l) (range (zlen l)) = l.
Proof.
  apply (nthZ_ext d).
  - rewrite zlen_map, zlen_range by apply zlen_nonneg; reflexivity.
  - intros i Hi. rewrite zlen_map, zlen_range in Hi by apply zlen_nonneg.
    rewrite (nthZ_map _ 0) by (rewrite zlen_range by apply zlen_nonneg; lia).
    rewrite nthZ_range by lia. reflexivity.
Qed.

Lemma foldM_range_get {S A} (g : S -> A -> res S) l n s :
  n = zlen l ->
  foldM (fun s j => do x <- get l j; g s x) (range n) s = foldM g l s.
Proof.
  intros ->. destruct l as [|a l0]; [reflexivity|]. set (l := a :: l0).
  transitivity (foldM g (map (nthZ a l) (range (zlen l))) s).
  - rewrite foldM_map. apply foldM_ext. intros s' j Hj; apply in_range in Hj.
    rewrite (get_nthZ a) by lia. reflexivity.
  - rewrite map_nthZ_range; reflexivity.
Qed.

Lemma mapM_range_get {A B} (g : A -> res B) l n :
  n = zlen l -> mapM (fun j => do x <- get l j; g x) (range n) = mapM g l.
Proof.
  intros ->. destruct l as [|a l0]; [reflexivity|]. set (l := a :: l0).
  transitivity (mapM g (map (nthZ a l) (range (zlen l)))).
  - rewrite mapM_map. apply mapM_ext. intros j Hj; apply in_range in Hj.
    rewrite (get_nthZ a) by lia. reflexivity.
  - rewrite map_nthZ_range; reflexivity.
Qed.

Lemma mapM_range_get_id {A} (l : list A) n : n = zlen l -> mapM (get l) (range n) = Ok l.
Proof.
  intros ->. destruct l as [|a l0]; [reflexivity|]. set (l := a :: l0).
  rewrite (mapM_ok _ (nthZ a l)).
  - rewrite map_nthZ_range; reflexivity.
  - intros j Hj; apply in_range in Hj. apply get_nthZ; lia.
Qed.

Lemma zlen_concat {A} (l : list (list A)) : zlen (concat l) = fold_right (fun r n => zlen r + n) 0 l.
Proof. induction l as [|r l IH]; cbn; [reflexivity|]. rewrite zlen_app, IH; reflexivity. Qed.

Lemma filter_app_ {A} (f : A -> bool) l1 l2 : filter f (l1 ++ l2) = filter f l1 ++ filter f l2.
Proof. induction l1 as [|x l1 IH]; cbn; [reflexivity|]. destruct (f x); cbn; rewrite IH; reflexivity. Qed.

Lemma sorted_lt_filter (f : Z -> bool) l : StronglySorted Z.lt l -> StronglySorted Z.lt (filter f l).
Proof.
  induction 1 as [|x l Hs IH Hf]; cbn; [constructor|].
  destruct (f x); [|assumption]. constructor; [assumption|].
  rewrite Forall_forall in *; intros y Hy; apply filter_In in Hy; apply Hf; tauto.
Qed.

Lemma zget_opt_zset {V} (d : dictZ V) k k' v :
  zget_opt (zset d k v) k' = if k =? k' then Some v else zget_opt d k'.
Proof.
  induction d as [|[k1 v1] d IH]; cbn; [reflexivity|].
  destruct (Z.eqb_spec k1 k); cbn.
  - subst; destruct (k =? k'); reflexivity.
  - destruct (Z.eqb_spec k1 k'); [|exact IH].
    subst; destruct (Z.eqb_spec k k'); [congruence | reflexivity].
Qed.

Lemma get_map_range {A} (f : Z -> A) n i : 0 <= i < n -> get (map f (range n)) i = Ok (f i).
Proof.
  intros Hi. assert (Hz : zlen (range n) = n) by (apply zlen_range; lia).
  rewrite (get_nthZ (f 0)) by (rewrite zlen_map, Hz; lia).
  rewrite (nthZ_map _ 0) by (rewrite Hz; lia). rewrite nthZ_range by lia. reflexivity.
Qed.

Lemma mapM_total {X Y} (f : X -> res Y) l : (forall x, In x l -> exists y, f x = Ok y) -> exists r, mapM f l = Ok r.
Proof.
  induction l as [|x l IH]; intros H; [eexists; reflexivity|]. destruct (H x (or_introl eq_refl)) as (y & E). destruct IH as (r & Er); [intros; apply H; right; assumption|].
  exists (y :: r). cbn. rewrite E. cbn [bind]. rewrite Er. reflexivity.
Qed.
Lemma mapM_zlen {X Y} (f : X -> res Y) l r : mapM f l = Ok r -> zlen r = zlen l.
Proof. intros E. apply mapM_inv in E. unfold zlen. f_equal. symmetry. induction E; cbn; congruence. Qed.
Lemma mapM_nthZ {X Y} (f : X -> res Y) l r dx dy i : mapM f l = Ok r -> 0 <= i < zlen l -> f (nthZ dx l i) = Ok (nthZ dy r i).
Proof.
  intros E. apply mapM_inv in E. revert i. induction E as [|x y l r Hxy E IH]; intros i Hi; [cbn in Hi; lia|]. rewrite zlen_cons in Hi.
  destruct (Z.eq_dec i 0) as [-> |Hn]; [exact Hxy|]. assert (Ei : i = (i - 1) + 1) by lia. rewrite Ei.
  change (x :: l) with ([x] ++ l). change (y :: r) with ([y] ++ r). rewrite !nthZ_app_r by (cbn; lia). change (zlen [x]) with 1. change (zlen [y]) with 1.
  replace (i - 1 + 1 - 1) with (i - 1) by lia. apply IH. lia.
Qed.
