From Verif Require Import Py PyLemmas Scatter Model_label Spec_label.
From Coq Require Import Permutation ZifyBool.

Definition g1 (x l : Z) := if (l =? 1) || (l =? 2) then l else x.
Definition g2 (x l : Z) := if negb (x =? 1) && negb (x =? 2) then (if (l =? 3) || (l =? 4) then l else x) else x.
Definition g3 (x l : Z) := if x =? 0 then l else x.

Section Ghost.
Context (dim n : Z) (facets : list (list Z)) (ghost : list Z).
Hypothesis Hdim : 0 <= dim.
Hypothesis Hrow : forall f, In f facets -> zlen f = dim /\ forall k, In k f -> 0 <= k < n.
Hypothesis Hg : zlen ghost = zlen facets.

Lemma ghost_loop_spec (pass : Z -> list Z -> Z -> res (list Z)) (g : Z -> Z -> Z) gn :
  (forall x l, g (g x l) l = g x l) ->
  (forall gn k index, zlen gn = n -> 0 <= k < zlen facets -> 0 <= index < dim ->
     pass k gn index = set gn (nthZ 0 (nthZ [] facets k) index) (g (nthZ 0 gn (nthZ 0 (nthZ [] facets k) index)) (nthZ 0 ghost k))) ->
  zlen gn = n ->
  exists gn', ghost_loop pass dim (zlen facets) gn = Ok gn' /\ zlen gn' = n /\
    forall f, 0 <= f < n -> nthZ 0 gn' f = fold_left g (touching facets ghost f) (nthZ 0 gn f).
Proof.
  intros Hidem Hpass HL. unfold ghost_loop.
  pose (gg := fun (x : Z) (k : Z) => g x (nthZ 0 ghost k)).
  pose (row := fun k => nthZ [] facets k).
  assert (Hin : forall k, 0 <= k < zlen facets -> In (row k) facets) by (intros; apply nthZ_In; assumption).
  assert (E : exists s, foldM (scat_step gg) (pairs_of row (range (zlen facets))) gn = Ok s /\ zlen s = zlen gn /\
     forall f, 0 <= f < zlen gn -> nthZ 0 s f = fold_left gg (labels_at f (pairs_of row (range (zlen facets)))) (nthZ 0 gn f)).
  { apply scat_spec. intros [k i] Hp. unfold pairs_of in Hp. apply in_flat_map in Hp as (k' & Hk & Hp).
    apply in_map_iff in Hp as (i' & [= -> ->] & Hi). apply in_range in Hk. cbn. rewrite HL. apply (Hrow _ (Hin k Hk)); exact Hi. }
  destruct E as (s & E & HLs & HS). exists s. split; [|split; [congruence|]].
  - rewrite <- E. unfold pairs_of. rewrite <- (foldM_nested (scat_step gg) row).
    assert (G : forall ks gn, zlen gn = n -> (forall k, In k ks -> 0 <= k < zlen facets) ->
       foldM (fun gn k => foldM (pass k) (range dim) gn) ks gn
       = foldM (fun s x => foldM (fun s k => scat_step gg s (x, k)) (row x) s) ks gn).
    { clear HL E HS s HLs gn. induction ks as [|k ks IH]; intros gn HL Hks; [reflexivity|]. cbn [foldM].
      pose proof (Hks k (or_introl eq_refl)) as Hk. destruct (Hrow _ (Hin k Hk)) as (Hlen & Hnod).
      assert (G2 : exists gn', foldM (pass k) (range dim) gn = Ok gn' /\ foldM (fun s i => scat_step gg s (k, i)) (row k) gn = Ok gn' /\ zlen gn' = n).
      { rewrite <- (foldM_range_get (fun s i => scat_step gg s (k, i)) (row k) dim) by (symmetry; exact Hlen).
        assert (G3 : forall is gn, zlen gn = n -> (forall i, In i is -> 0 <= i < dim) ->
           exists gn', foldM (pass k) is gn = Ok gn' /\ foldM (fun s i => do x <- get (row k) i; scat_step gg s (k, x)) is gn = Ok gn' /\ zlen gn' = n).
        { clear gn HL. induction is as [|i is IHi]; intros gn HL His; [exists gn; auto|]. cbn [foldM].
          pose proof (His i (or_introl eq_refl)) as Hi. rewrite Hpass by assumption.
          rewrite (get_nthZ 0) by (rewrite Hlen; exact Hi). cbn [bind].
          assert (Hr : 0 <= nthZ 0 (row k) i < n) by (apply Hnod, nthZ_In; rewrite Hlen; exact Hi).
          rewrite (scat_step_ok 0) by (rewrite HL; exact Hr). fold (row k). rewrite set_upd by (rewrite HL; exact Hr). cbn [bind].
          apply IHi; [rewrite zlen_upd; exact HL | intros; apply His; right; assumption]. }
        apply G3; [exact HL | intros i Hi; apply in_range; exact Hi]. }
      destruct G2 as (gn' & A & B & C). rewrite A, B. cbn [bind]. apply IH; [exact C | intros; apply Hks; right; assumption]. }
    apply G; [exact HL | intros k Hk; apply in_range; exact Hk].
  - intros f Hf. rewrite HS by lia. rewrite fold_labels_idem by (intros; apply Hidem).
    unfold touching.
    assert (G : forall a, fold_left gg (filter (fun x => mem f (row x)) (range (zlen facets))) a
        = fold_left g (map (nthZ 0 ghost) (filter (fun x => mem f (row x)) (range (zlen facets)))) a).
    { intros a. generalize (filter (fun x => mem f (row x)) (range (zlen facets))). intros l; revert a.
      induction l as [|x l IH]; intros a; cbn; [reflexivity|]. apply IH. }
    rewrite G. f_equal.
    assert (Q : forall (fs : list (list Z)) (gs : list Z), zlen gs = zlen fs ->
       map (nthZ 0 gs) (filter (fun x => mem f (nthZ [] fs x)) (range (zlen fs)))
       = map snd (filter (fun fl => mem f (fst fl)) (combine fs gs))).
    { clear. induction fs as [|r fs IH] using rev_ind; intros gs HL.
      - destruct gs; reflexivity.
      - destruct gs as [|l gs _] using rev_ind; [exfalso; revert HL; unfold zlen; rewrite app_length; cbn [length]; lia|].
        assert (HL' : zlen gs = zlen fs) by (revert HL; unfold zlen; rewrite !app_length; cbn [length]; lia).
        replace (zlen (fs ++ [r])) with (zlen fs + 1) by (rewrite zlen_app; reflexivity).
        rewrite range_succ by apply zlen_nonneg.
        rewrite filter_app, map_app. cbn [filter]. rewrite nthZ_app_last.
        assert (EC : combine (fs ++ [r]) (gs ++ [l]) = combine fs gs ++ [(r, l)]).
        { clear -HL'. revert gs HL'. induction fs as [|a fs IH]; intros [|b gs] HL'; try (exfalso; revert HL'; unfold zlen; cbn [length]; lia); [reflexivity|].
          cbn. rewrite IH; [reflexivity|]. rewrite !zlen_cons in HL'; lia. }
        rewrite EC, filter_app, map_app. cbn [filter fst]. f_equal.
        + rewrite <- IH by exact HL'. rewrite (filter_ext_in _ (fun x => mem f (nthZ [] fs x))).
          * apply map_ext_in. intros k Hk. apply filter_In in Hk as (Hk & _). apply in_range in Hk. apply nthZ_app_l; lia.
          * intros k Hk. apply in_range in Hk. rewrite nthZ_app_l by lia. reflexivity.
        + destruct (mem f r); [|reflexivity]. cbn. rewrite <- HL', nthZ_app_last. reflexivity. }
    apply Q; exact Hg.
Qed.

Lemma last_opt_app l x : last_opt (l ++ [x]) = Some x.
Proof. unfold last_opt. rewrite rev_app_distr. reflexivity. Qed.

Lemma fold_g1 ls x : fold_left g1 ls x = match last_opt (filter (fun l => (l =? 1) || (l =? 2)) ls) with Some l => l | None => x end.
Proof.
  induction ls as [|l ls IH] using rev_ind; [reflexivity|]. rewrite fold_left_app, filter_app. cbn [fold_left filter]. unfold g1 at 1.
  destruct ((l =? 1) || (l =? 2)) eqn:E; [rewrite last_opt_app; reflexivity|]. rewrite app_nil_r. exact IH.
Qed.
Lemma fold_g2_fix ls x : (x = 1 \/ x = 2) -> fold_left g2 ls x = x.
Proof. intros H. induction ls as [|l ls IH]; [reflexivity|]. cbn [fold_left]. replace (g2 x l) with x by (destruct H as [-> | ->]; reflexivity). exact IH. Qed.
Lemma fold_g2 ls x : x <> 1 -> x <> 2 -> fold_left g2 ls x = match last_opt (filter (fun l => (l =? 3) || (l =? 4)) ls) with Some l => l | None => x end.
Proof.
  intros H1 H2.
  assert (G : forall ls, let y := fold_left g2 ls x in y <> 1 /\ y <> 2 /\ y = match last_opt (filter (fun l => (l =? 3) || (l =? 4)) ls) with Some l => l | None => x end).
  { clear ls. induction ls as [|l ls IH] using rev_ind; [cbn; auto|]. rewrite fold_left_app, filter_app. cbn [fold_left filter]. cbv zeta in IH |- *. destruct IH as (A & B & C).
    assert (EG : g2 (fold_left g2 ls x) l = if (l =? 3) || (l =? 4) then l else fold_left g2 ls x).
    { unfold g2 at 1.
    assert (E : negb (fold_left g2 ls x =? 1) && negb (fold_left g2 ls x =? 2) = true) by lia. rewrite E. reflexivity. }
    rewrite EG.
    destruct ((l =? 3) || (l =? 4)) eqn:E2; [rewrite last_opt_app; repeat split; lia|]. rewrite app_nil_r. auto. }
  apply G.
Qed.
Lemma fold_g3_fix ls x : x <> 0 -> fold_left g3 ls x = x.
Proof. intros H. induction ls as [|l ls IH]; [reflexivity|]. cbn [fold_left]. replace (g3 x l) with x by (unfold g3; destruct (Z.eqb_spec x 0); lia). exact IH. Qed.
Lemma fold_g3 ls : fold_left g3 ls 0 = match filter (fun l => negb (l =? 0)) ls with l :: _ => l | [] => 0 end.
Proof.
  induction ls as [|l ls IH]; [reflexivity|]. cbn [fold_left filter]. change (g3 0 l) with l. destruct (Z.eqb_spec l 0) as [->|Hne]; cbn [negb]; [exact IH|]. apply fold_g3_fix; exact Hne.
Qed.

Lemma last_opt_filter_In (f : Z -> bool) ls l : last_opt (filter f ls) = Some l -> f l = true.
Proof.
  unfold last_opt. destruct (rev (filter f ls)) as [|y r] eqn:E; [discriminate|]. intros [= ->].
  assert (In l (rev (filter f ls))) by (rewrite E; left; reflexivity). apply in_rev in H. apply filter_In in H. apply H.
Qed.

Lemma fold_all ls : fold_left g3 ls (fold_left g2 ls (fold_left g1 ls 0)) = precedence ls.
Proof.
  unfold precedence. rewrite fold_g1. destruct (last_opt (filter (fun l => (l =? 1) || (l =? 2)) ls)) as [l|] eqn:E1.
  - apply last_opt_filter_In in E1. rewrite fold_g2_fix by lia. apply fold_g3_fix; lia.
  - rewrite fold_g2 by lia. destruct (last_opt (filter (fun l => (l =? 3) || (l =? 4)) ls)) as [l|] eqn:E2.
    + apply last_opt_filter_In in E2. apply fold_g3_fix; lia.
    + apply fold_g3.
Qed.

Lemma relabel_spec a a' b b' gn : relabel a a' b b' gn = Ok (map (fun x => if x =? a then a' else if x =? b then b' else x) gn).
Proof.
  unfold relabel.
  rewrite (foldM_pointwise 0 (fun i x => if x =? a then Ok a' else if x =? b then Ok b' else Ok x)
            (fun i => let x := nthZ 0 gn i in if x =? a then a' else if x =? b then b' else x)).
  - f_equal. rewrite <- (map_nthZ_range 0 gn) at 2. rewrite map_map. reflexivity.
  - reflexivity.
  - intros i Hi. cbv zeta. destruct (nthZ 0 gn i =? a); [reflexivity|]. destruct (nthZ 0 gn i =? b); reflexivity.
Qed.

Lemma c09 perx pery perz : 0 <= n ->
  exists gn, define_ghost_node CellsDict dim n facets ghost perx pery perz = Ok gn /\ zlen gn = n /\
    forall k, 0 <= k < n -> nthZ 0 gn k = periodic_label perx pery perz (precedence (touching facets ghost k)).
Proof.
  intros Hn. unfold define_ghost_node.
  destruct (ghost_loop_spec (ghost_pass1 facets ghost) g1 (map (fun _ => 0) (range n))) as (s1 & E1 & L1 & H1).
  { intros; unfold g1; destruct ((l =? 1) || (l =? 2)); reflexivity. }
  { intros gn k i HL Hk Hi. unfold ghost_pass1, get2. rewrite (get_nthZ 0) by lia. cbn [bind].
    assert (Hin : In (nthZ [] facets k) facets) by (apply nthZ_In; lia). destruct (Hrow _ Hin) as (HLr & Hr).
    assert (0 <= nthZ 0 (nthZ [] facets k) i < n) by (apply Hr, nthZ_In; lia).
    unfold g1. destruct ((nthZ 0 ghost k =? 1) || (nthZ 0 ghost k =? 2)).
    - rewrite (get_nthZ []) by lia. cbn [bind]. rewrite (get_nthZ 0) by lia. reflexivity.
    - rewrite set_upd by lia. rewrite upd_same by lia. reflexivity. }
  { rewrite zlen_map, zlen_range; lia. }
  rewrite E1. cbn [bind].
  destruct (ghost_loop_spec (ghost_pass2 facets ghost) g2 s1) as (s2 & E2 & L2 & H2).
  { intros; unfold g2. destruct (negb (x =? 1) && negb (x =? 2)) eqn:A; [|rewrite A; reflexivity].
    destruct ((l =? 3) || (l =? 4)) eqn:B; [|rewrite A; reflexivity]. destruct (negb (l =? 1) && negb (l =? 2)); reflexivity. }
  { intros gn k i HL Hk Hi. unfold ghost_pass2, get2.
    assert (Hin : In (nthZ [] facets k) facets) by (apply nthZ_In; lia). destruct (Hrow _ Hin) as (HLr & Hr).
    assert (0 <= nthZ 0 (nthZ [] facets k) i < n) by (apply Hr, nthZ_In; lia).
    rewrite (get_nthZ []) by lia. cbn [bind]. rewrite (get_nthZ 0) by lia. cbn [bind]. rewrite (get_nthZ 0) by lia. cbn [bind].
    rewrite (get_nthZ 0 ghost) by lia. cbn [bind]. unfold g2.
    destruct (negb _ && negb _); [destruct (_ || _); [reflexivity|]|]; rewrite set_upd, upd_same by lia; reflexivity. }
  { exact L1. }
  rewrite E2. cbn [bind].
  destruct (ghost_loop_spec (ghost_pass3 facets ghost) g3 s2) as (s3 & E3 & L3 & H3).
  { intros; unfold g3. destruct (Z.eqb_spec x 0); [destruct (Z.eqb_spec l 0); lia|]. destruct (Z.eqb_spec x 0); lia. }
  { intros gn k i HL Hk Hi. unfold ghost_pass3, get2.
    assert (Hin : In (nthZ [] facets k) facets) by (apply nthZ_In; lia). destruct (Hrow _ Hin) as (HLr & Hr).
    assert (0 <= nthZ 0 (nthZ [] facets k) i < n) by (apply Hr, nthZ_In; lia).
    rewrite (get_nthZ []) by lia. cbn [bind]. rewrite (get_nthZ 0) by lia. cbn [bind]. rewrite (get_nthZ 0) by lia. cbn [bind].
    rewrite (get_nthZ 0 ghost) by lia. cbn [bind]. unfold g3.
    destruct (_ =? 0); [reflexivity|]. rewrite set_upd, upd_same by lia; reflexivity. }
  { exact L2. }
  rewrite E3. cbn [bind].
  assert (H : forall k, 0 <= k < n -> nthZ 0 s3 k = precedence (touching facets ghost k)).
  { intros k Hk. rewrite H3, H2, H1 by exact Hk. rewrite (nthZ_map _ 0) by (rewrite zlen_range; lia). apply fold_all. }
  assert (R : forall (b : bool) p p' q q' gn, (if b then relabel p p' q q' gn else Ok gn)
       = Ok (map (fun x => if b then (if x =? p then p' else if x =? q then q' else x) else x) gn)).
  { intros [] p p' q q' gn; [apply relabel_spec|]. rewrite map_id; reflexivity. }
  rewrite !R. cbn [bind]. rewrite !R. cbn [bind]. rewrite R. eexists; split; [reflexivity|]. rewrite !map_map, zlen_map. split; [exact L3|].
  intros k Hk. rewrite (nthZ_map _ 0) by lia. rewrite H by exact Hk.
  generalize (precedence (touching facets ghost k)). intros l. unfold periodic_label.
  destruct (Z.eqb_spec l 1) as [->|N1]; [destruct perx, pery, perz; reflexivity|].
  destruct (Z.eqb_spec l 2) as [->|N2]; [destruct perx, pery, perz; reflexivity|].
  replace (if perx then l else l) with l by (destruct perx; reflexivity).
  destruct (Z.eqb_spec l 3) as [->|N3]; [destruct perx, pery, perz; reflexivity|].
  destruct (Z.eqb_spec l 4) as [->|N4]; [destruct perx, pery, perz; reflexivity|].
  replace (if pery then l else l) with l by (destruct pery; reflexivity).
  destruct (Z.eqb_spec l 5) as [->|N5]; [destruct perx, pery, perz; reflexivity|].
  destruct (Z.eqb_spec l 6) as [->|N6]; [destruct perx, pery, perz; reflexivity|].
  replace (if perz then l else l) with l by (destruct perz; reflexivity).
  destruct l as [|[[[]|[]|]|[[]|[]|]|]|]; try reflexivity; lia.
Qed.
End Ghost.

(** ** face labels *)
Lemma name2_sym a b : name2 a b = name2 b a.
Proof.
  unfold name2. rewrite (Z.eqb_sym b a). destruct (Z.eqb_spec a b); [congruence|].
  repeat match goal with |- (if ?x then _ else _) = (if ?y then _ else _) =>
    replace y with x by (destruct x eqn:?; destruct y eqn:?; lia); destruct x; [reflexivity|] end. reflexivity.
Qed.
Lemma one_is_12 v a b c : one_is v a b c = one_is v b a c.
Proof. unfold one_is. destruct (a =? v), (b =? v), (c =? v), (a =? 0), (b =? 0), (c =? 0); reflexivity. Qed.
Lemma one_is_23 v a b c : one_is v a b c = one_is v a c b.
Proof. unfold one_is. destruct (a =? v), (b =? v), (c =? v), (a =? 0), (b =? 0), (c =? 0); reflexivity. Qed.
Lemma name3_12 a b c : name3 a b c = name3 b a c.
Proof.
  unfold name3. rewrite !(one_is_12 _ a b c). destruct (Z.eqb_spec a b) as [->|H]; [rewrite Z.eqb_refl; reflexivity|].
  destruct (Z.eqb_spec b a); [congruence|]. reflexivity.
Qed.
Lemma name3_23 a b c : name3 a b c = name3 a c b.
Proof. unfold name3. rewrite !(one_is_23 _ a b c). rewrite andb_comm. reflexivity. Qed.

Lemma name_perm2 a b a' b' : Permutation [a; b] [a'; b'] -> name2 a b = name2 a' b'.
Proof. intros H. apply Permutation_length_2 in H as [(-> & ->)|(-> & ->)]; [reflexivity | apply name2_sym]. Qed.

Lemma name_perm3_gen l l' : Permutation l l' ->
  (exists a b c, l = [a; b; c]) -> match l, l' with [a; b; c], [a'; b'; c'] => name3 a b c = name3 a' b' c' | _, _ => True end.
Proof.
  intros HP (a & b & c & ->). destruct l' as [|a' [|b' [|c' [|]]]]; try exact I.
  assert (Ha : In a [a'; b'; c']) by (eapply Permutation_in; [exact HP | left; reflexivity]).
  destruct Ha as [E|[E|[E|[]]]]; subst.
  - apply Permutation_cons_inv in HP. apply Permutation_length_2 in HP as [(-> & ->)|(-> & ->)]; [reflexivity | apply name3_23].
  - assert (HP' : Permutation [b; c] [a'; c']).
    { apply (Permutation_cons_inv (a := a)). etransitivity; [exact HP|]. apply perm_swap. }
    apply Permutation_length_2 in HP' as [(-> & ->)|(-> & ->)]; [apply name3_12 | rewrite name3_23; apply name3_12].
  - assert (HP' : Permutation [b; c] [a'; b']).
    { apply (Permutation_cons_inv (a := a)). etransitivity; [exact HP|]. etransitivity; [apply perm_skip, perm_swap | apply perm_swap]. }
    apply Permutation_length_2 in HP' as [(-> & ->)|(-> & ->)].
    + rewrite name3_12, name3_23. reflexivity.
    + rewrite name3_23, name3_12, name3_23. reflexivity.
Qed.
Lemma name_perm3 a b c a' b' c' : Permutation [a; b; c] [a'; b'; c'] -> name3 a b c = name3 a' b' c'.
Proof. intros H. apply (name_perm3_gen _ _ H). eauto. Qed.

Lemma where_eq_mem name v i : 0 <= i < zlen name -> mem i (where_eq name v) = (nthZ 0 name i =? v).
Proof.
  intros Hi. unfold where_eq. destruct (mem_spec i (filter (fun i => nthZ 0 name i =? v) (range (zlen name)))) as [H|H].
  - apply filter_In in H as (_ & H). symmetry; exact H.
  - destruct (nthZ 0 name i =? v) eqn:E; [|reflexivity]. exfalso; apply H. apply filter_In. split; [apply in_range; exact Hi | exact E].
Qed.

Lemma c16 dim name i : (dim = 2 \/ dim = 3) -> 0 <= i < zlen name ->
  categories_of (face_lists dim name) i = if mem (nthZ 0 name i) (known_labels dim) then 1%nat else 0%nat.
Proof.
  intros Hd Hi. unfold categories_of, categories, face_lists.
  cbn [fl_inner fl_halo fl_in fl_out fl_upper fl_bottom fl_front fl_back fl_pin fl_pout fl_pupper fl_pbottom fl_pfront fl_pback].
  assert (Hn : mem i [] = false) by reflexivity.
  destruct Hd as [-> | ->]; cbn [Z.eqb Pos.eqb filter]; rewrite !where_eq_mem by exact Hi; rewrite ?Hn;
    generalize (nthZ 0 name i); intros l; unfold known_labels; cbn [Z.eqb Pos.eqb app mem existsb];
    repeat match goal with |- context [Z.eqb l ?v] => destruct (Z.eqb_spec l v); [subst l; reflexivity|] end; reflexivity.
Qed.

Lemma last_opt_split (f : Z -> bool) ls : (exists l, In l ls /\ f l = true) ->
  exists before l after, ls = before ++ l :: after /\ last_opt (filter f ls) = Some l /\ f l = true /\ forall x, In x after -> f x = false.
Proof.
  induction ls as [|x ls IH] using rev_ind; intros (l & Hl & Hf); [destruct Hl|].
  destruct (f x) eqn:E.
  - exists ls, x, []. rewrite filter_app. cbn. rewrite E, last_opt_app. repeat split; auto. intros y [].
  - assert (Hl' : In l ls). { apply in_app_or in Hl as [H|[<-|[]]]; [exact H | congruence]. }
    destruct IH as (b & m & a & -> & A & B & C); [eauto|].
    exists b, m, (a ++ [x]). rewrite <- app_assoc. split; [reflexivity|]. rewrite filter_app in *. cbn [filter app] in *. rewrite !B in *.
    rewrite filter_app. cbn [filter]. rewrite E, app_nil_r. split; [exact A|]. split; [reflexivity|].
    intros y Hy. apply in_app_or in Hy as [Hy|[<-|[]]]; auto.
Qed.
Lemma filter_none (f : Z -> bool) ls : (forall x, In x ls -> f x = false) -> filter f ls = [].
Proof. induction ls as [|x ls IH]; intros H; cbn; [reflexivity|]. rewrite H by (left; reflexivity). apply IH; intros; apply H; right; assumption. Qed.
Lemma filter_all (f : Z -> bool) ls : (forall x, In x ls -> f x = true) -> filter f ls = ls.
Proof. induction ls as [|x ls IH]; intros H; cbn; [reflexivity|]. rewrite H by (left; reflexivity). f_equal. apply IH; intros; apply H; right; assumption. Qed.

Lemma precedence_meaning ls :
  ((exists l, In l ls /\ (l = 1 \/ l = 2)) ->
     exists before l after, ls = before ++ l :: after /\ precedence ls = l /\ (l = 1 \/ l = 2) /\
       forall x, In x after -> x <> 1 /\ x <> 2) /\
  ((forall l, In l ls -> l <> 1 /\ l <> 2) -> (exists l, In l ls /\ (l = 3 \/ l = 4)) ->
     exists before l after, ls = before ++ l :: after /\ precedence ls = l /\ (l = 3 \/ l = 4) /\
       forall x, In x after -> x <> 3 /\ x <> 4) /\
  ((forall l, In l ls -> l <> 1 /\ l <> 2 /\ l <> 3 /\ l <> 4 /\ l <> 0) -> precedence ls = hd 0 ls) /\
  precedence [] = 0.
Proof.
  split; [|split; [|split; [|reflexivity]]].
  - intros (l & Hl & H). destruct (last_opt_split (fun l => (l =? 1) || (l =? 2)) ls) as (b & m & a & -> & A & B & C).
    { exists l. split; [exact Hl|lia]. }
    exists b, m, a. split; [reflexivity|]. unfold precedence. rewrite A. split; [reflexivity|]. split; [lia|].
    intros x Hx. specialize (C x Hx). cbv beta in C. lia.
  - intros H12 (l & Hl & H). destruct (last_opt_split (fun l => (l =? 3) || (l =? 4)) ls) as (b & m & a & E & A & B & C).
    { exists l. split; [exact Hl|lia]. }
    exists b, m, a. split; [exact E|]. unfold precedence.
    rewrite (filter_none (fun l => (l =? 1) || (l =? 2))) by (intros x Hx; specialize (H12 x Hx); lia).
    cbn [last_opt rev]. rewrite A. split; [reflexivity|]. split; [lia|].
    intros x Hx. specialize (C x Hx). cbv beta in C. lia.
  - intros H. unfold precedence.
    rewrite (filter_none (fun l => (l =? 1) || (l =? 2))) by (intros x Hx; specialize (H x Hx); lia).
    rewrite (filter_none (fun l => (l =? 3) || (l =? 4))) by (intros x Hx; specialize (H x Hx); lia).
    rewrite filter_all by (intros x Hx; specialize (H x Hx); lia). destruct ls; reflexivity.
Qed.

Lemma list_branch_fails dim n facets labels perx pery perz :
  0 < dim -> facets <> [] -> define_ghost_node CellsList dim n facets labels perx pery perz = Err UnboundLocalError.
Proof.
  intros Hd Hf. unfold define_ghost_node. destruct facets as [|f fs]; [congruence|].
  pose proof (zlen_nonneg fs). rewrite zlen_cons. replace ((0 <? zlen fs + 1) && (0 <? dim)) with true by lia. reflexivity.
Qed.

Lemma count_where name v i : 0 <= i < zlen name -> count_occ Z.eq_dec (where_eq name v) i = if nthZ 0 name i =? v then 1%nat else 0%nat.
Proof.
  intros Hi. pose proof (where_eq_mem name v i Hi) as HM.
  assert (HN : NoDup (where_eq name v)) by (apply NoDup_filter, NoDup_range).
  destruct (nthZ 0 name i =? v).
  - apply mem_In in HM. apply (NoDup_count_occ' Z.eq_dec); assumption.
  - apply mem_not_In in HM. apply count_occ_not_In; exact HM.
Qed.
Lemma count_np_sort l i : count_occ Z.eq_dec (np_sort l) i = count_occ Z.eq_dec l i.
Proof. apply (Permutation_count_occ Z.eq_dec). apply np_sort_perm. Qed.

Lemma c16_boundary dim name i :
  (dim = 2 \/ dim = 3) -> 0 <= i < zlen name ->
  count_occ Z.eq_dec (fl_boundary (face_lists dim name)) i
    = (if mem (nthZ 0 name i) (if Z.eqb dim 3 then [1; 2; 3; 4; 5; 6] else [1; 2; 3; 4]) then 1%nat else 0%nat) /\
  count_occ Z.eq_dec (fl_pboundary (face_lists dim name)) i
    = (if mem (nthZ 0 name i) (if Z.eqb dim 3 then [11; 22; 33; 44; 55; 66] else [11; 22; 33; 44]) then 1%nat else 0%nat).
Proof.
  intros Hd Hi. unfold face_lists. cbn [fl_boundary fl_pboundary]. rewrite !count_np_sort.
  destruct Hd as [-> | ->]; cbn [Z.eqb Pos.eqb]; rewrite !count_occ_app, !count_where by exact Hi;
    generalize (nthZ 0 name i); intros l; cbn [mem existsb]; split;
    repeat match goal with |- context [Z.eqb l ?v] => destruct (Z.eqb_spec l v); [subst l; reflexivity|] end; reflexivity.
Qed.
