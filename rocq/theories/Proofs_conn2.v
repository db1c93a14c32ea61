(** * Proofs_conn2: the face table (C11) *)
From Verif Require Import Py PyLemmas Scatter Model_conn Spec_conn Proofs_conn1.
From Coq Require Import Permutation Sorting.Sorted ZifyBool.

Lemma row_eqb_spec a b : reflect (a = b) (row_eqb a b).
Proof.
  revert b; induction a as [|x a IH]; intros [|y b]; cbn; try (constructor; congruence).
  destruct (Z.eqb_spec x y); cbn; [|constructor; congruence]. destruct (IH b); constructor; congruence.
Qed.
Lemma row_ltb_trans a b c : row_ltb a b = true -> row_ltb b c = true -> row_ltb a c = true.
Proof.
  revert b c; induction a as [|x a IH]; intros [|y b] [|z c]; cbn; try congruence.
  rewrite !orb_true_iff, !andb_true_iff, !Z.ltb_lt, !Z.eqb_eq. intros [H|(H & H')] [K|(K & K')]; try (left; lia).
  right; split; [lia|]. eapply IH; eauto.
Qed.
Lemma row_ltb_irrefl a : row_ltb a a = false.
Proof. induction a as [|x a IH]; cbn; [reflexivity|]. rewrite IH. lia. Qed.
Lemma row_ltb_total a b : row_ltb a b = false -> a <> b -> row_ltb b a = true.
Proof.
  revert b; induction a as [|x a IH]; intros [|y b]; cbn; try congruence.
  rewrite orb_false_iff, andb_false_iff, orb_true_iff, andb_true_iff. intros (H & K) Hne.
  destruct (Z.eq_dec x y) as [->|]; [|left; lia]. right. split; [lia|]. apply IH; [destruct K; [lia|assumption] | congruence].
Qed.
Definition row_lt a b := row_ltb a b = true.

Lemma ins_row_In x y l : In y (ins_row x l) <-> y = x \/ In y l.
Proof.
  induction l as [|z l IH]; cbn; [intuition|]. destruct (row_ltb x z); [cbn; intuition|].
  destruct (row_eqb_spec x z); [subst; cbn; intuition|]. cbn. rewrite IH. intuition.
Qed.
Lemma ins_row_sorted x l : StronglySorted row_lt l -> StronglySorted row_lt (ins_row x l).
Proof.
  induction 1 as [|z l HS IH HF]; cbn; [repeat constructor|]. destruct (row_ltb x z) eqn:E.
  - constructor; [constructor; assumption|]. constructor; [exact E|]. rewrite Forall_forall in *. intros y Hy. eapply row_ltb_trans; [exact E | apply HF; exact Hy].
  - destruct (row_eqb_spec x z); [constructor; assumption|]. constructor; [exact IH|]. rewrite Forall_forall in *. intros y Hy.
    apply ins_row_In in Hy as [->|Hy]; [apply row_ltb_total; auto | apply HF; exact Hy].
Qed.
Definition urows (rows : list (list Z)) := fold_right ins_row [] rows.
Lemma urows_In y rows : In y (urows rows) <-> In y rows.
Proof. induction rows as [|x rows IH]; cbn; [reflexivity|]. rewrite ins_row_In, IH. intuition. Qed.
Lemma urows_sorted rows : StronglySorted row_lt (urows rows).
Proof. induction rows as [|x rows IH]; cbn; [constructor | apply ins_row_sorted; exact IH]. Qed.
Lemma urows_NoDup rows : NoDup (urows rows).
Proof.
  assert (G : forall l, StronglySorted row_lt l -> NoDup l).
  { induction 1 as [|z l HS IH HF]; constructor; [|exact IH]. rewrite Forall_forall in HF. intros Hin. specialize (HF z Hin).
    unfold row_lt in HF. rewrite row_ltb_irrefl in HF. discriminate. }
  apply G, urows_sorted.
Qed.
Lemma row_index_spec r l : In r l -> 0 <= row_index r l < zlen l /\ nthZ [] l (row_index r l) = r.
Proof.
  induction l as [|y l IH]; intros H; [destruct H|]. cbn [row_index]. rewrite zlen_cons. pose proof (zlen_nonneg l).
  destruct (row_eqb_spec r y) as [->|Hne]; [split; [lia | reflexivity]|].
  destruct H as [H|H]; [congruence|]. destruct (IH H) as (A & B). split; [lia|]. rewrite nthZ_cons by lia.
  replace (1 + row_index r l - 1) with (row_index r l) by lia. exact B.
Qed.
Lemma row_index_unique l i : NoDup l -> 0 <= i < zlen l -> row_index (nthZ [] l i) l = i.
Proof.
  intros HN Hi. destruct (row_index_spec (nthZ [] l i) l) as (A & B); [apply nthZ_In; exact Hi|].
  apply Z2Nat.inj; try lia. apply (proj1 (NoDup_nth l []) HN); unfold zlen, nthZ in *; try lia. exact B.
Qed.

(** ** facets of a cell *)
Lemma list3 (r : list Z) : zlen r = 3 -> exists a b c, r = [a; b; c].
Proof. destruct r as [|a [|b [|c [|]]]]; unfold zlen; cbn; try lia. eauto. Qed.
Lemma list4 (r : list Z) : zlen r = 4 -> exists a b c d, r = [a; b; c; d].
Proof. destruct r as [|a [|b [|c [|d [|]]]]]; unfold zlen; cbn; try lia. eauto. Qed.
Lemma list2 (r : list Z) : zlen r = 2 -> exists a b, r = [a; b].
Proof. destruct r as [|a [|b [|]]]; unfold zlen; cbn; try lia. eauto. Qed.

Lemma sorted_lt_le l : StronglySorted Z.lt l -> StronglySorted Z.le l.
Proof. induction 1 as [|x l HS IH HF]; constructor; [exact IH|]. rewrite Forall_forall in *. intros y Hy. specialize (HF y Hy). lia. Qed.
Lemma np_sort_id l : StronglySorted Z.lt l -> np_sort l = l.
Proof. intros H. apply sorted_le_unique; [apply np_sort_sorted | apply sorted_lt_le, H | apply np_sort_perm]. Qed.
Lemma np_sort_NoDup_lt l : NoDup l -> StronglySorted Z.lt (np_sort l).
Proof.
  intros H. assert (HS := np_sort_sorted l). assert (HN : NoDup (np_sort l)) by (eapply Permutation_NoDup; [symmetry; apply np_sort_perm | exact H]).
  revert HS HN. generalize (np_sort l). clear. induction l as [|x l IH]; intros HS HN; constructor.
  - inversion HS; inversion HN; subst; auto.
  - inversion HS as [|? ? HS1 HF]; inversion HN as [|? ? Hx HN1]; subst. rewrite Forall_forall in *. intros y Hy. specialize (HF y Hy).
    assert (x <> y) by congruence. lia.
Qed.

Lemma nodup3 (a b c : Z) : NoDup [a; b; c] -> a <> b /\ b <> c /\ a <> c.
Proof.
  intros H. inversion H as [|? ? H1 H2]; subst. inversion H2 as [|? ? H3 H4]; subst.
  repeat split; intros ->; [apply H1 | apply H3 | apply H1]; cbn; auto.
Qed.
Lemma nodup4 (a b c d : Z) : NoDup [a; b; c; d] -> a <> b /\ b <> c /\ a <> c /\ a <> d /\ b <> d /\ c <> d.
Proof.
  intros H. inversion H as [|? ? H1 H2]; subst. destruct (nodup3 _ _ _ H2) as (A & B & C).
  repeat split; auto; intros ->; apply H1; cbn; auto.
Qed.

Section Facets.
Context (dim : Z) (r : list Z).
Hypothesis Hdim : dim = 2 \/ dim = 3.
Hypothesis Hlen : zlen r = dim + 1.
Hypothesis Hnd : NoDup r.

Lemma local_facets_props F : In F (local_facets dim r) -> NoDup F /\ zlen F = dim /\ incl F r.
Proof.
  destruct Hdim as [-> | ->].
  - destruct (list3 r Hlen) as (a & b & c & E). rewrite E in *. clear E r. cbn.
    assert (a <> b /\ b <> c /\ a <> c).
    { apply nodup3; exact Hnd. }
    intros [<-|[<-|[<-|[]]]]; (split; [repeat constructor; cbn; intuition | split; [reflexivity|]]); intros x Hx; cbn in *; intuition.
  - destruct (list4 r Hlen) as (a & b & c & d & E). rewrite E in *. clear E r. cbn.
    assert (a <> b /\ b <> c /\ a <> c /\ a <> d /\ b <> d /\ c <> d).
    { apply nodup4; exact Hnd. }
    intros [<-|[<-|[<-|[<-|[]]]]]; (split; [repeat constructor; cbn; intuition | split; [reflexivity|]]); intros x Hx; cbn in *; intuition.
Qed.

Lemma facet_of_local F : facet_of dim F r <-> In F (map np_sort (local_facets dim r)).
Proof.
  split.
  - intros (HS & HL & HI).
    assert (HF : NoDup F) by (apply sorted_lt_NoDup, HS).
    assert (G : exists G, In G (local_facets dim r) /\ Permutation F G).
    { destruct Hdim as [Ed | Ed].
      - rewrite Ed in *. destruct (list3 r Hlen) as (a & b & c & E). destruct (list2 F HL) as (x & y & EF). rewrite E in *. rewrite EF in *. clear E EF.
        pose proof (HI x (or_introl eq_refl)) as Hx. pose proof (HI y (or_intror (or_introl eq_refl))) as Hy.
        assert (Hxy : x <> y) by (inversion HF as [|? ? H1 H2]; subst; cbn in *; intuition).
        cbn in Hx, Hy |- *.
        destruct Hx as [<-|[<-|[<-|[]]]]; destruct Hy as [<-|[<-|[<-|[]]]]; try congruence;
          first [ eexists; split; [left; reflexivity|]; first [reflexivity | apply perm_swap]
                | eexists; split; [right; left; reflexivity|]; first [reflexivity | apply perm_swap]
                | eexists; split; [right; right; left; reflexivity|]; first [reflexivity | apply perm_swap] ].
      - rewrite Ed in *. destruct (list4 r Hlen) as (a & b & c & d & E). destruct (list3 F HL) as (x & y & z & EF). rewrite E in *. rewrite EF in *. clear E EF.
        pose proof (HI x (or_introl eq_refl)) as Hx. pose proof (HI y (or_intror (or_introl eq_refl))) as Hy. pose proof (HI z (or_intror (or_intror (or_introl eq_refl)))) as Hz.
        assert (Hxy : x <> y /\ y <> z /\ x <> z).
        { apply nodup3; exact HF. }
        assert (Habcd : a <> b /\ b <> c /\ a <> c /\ a <> d /\ b <> d /\ c <> d).
        { apply nodup4; exact Hnd. }
        destruct Hxy as (Hxy & Hyz & Hxz).
        assert (PP : forall u v w, NoDup [u; v; w] -> In u [x; y; z] -> In v [x; y; z] -> In w [x; y; z] -> Permutation [x; y; z] [u; v; w]).
        { intros u v w HN Hu Hv Hw. symmetry. apply NoDup_Permutation_bis; [exact HN | cbn; lia |]. intros t [<-|[<-|[<-|[]]]]; assumption. }
        destruct Habcd as (N1 & N2 & N3 & N4 & N5 & N6).
        unfold local_facets. cbn [Z.eqb Pos.eqb].
        change (nthZ 0 [a; b; c; d] 0) with a. change (nthZ 0 [a; b; c; d] 1) with b. change (nthZ 0 [a; b; c; d] 2) with c. change (nthZ 0 [a; b; c; d] 3) with d.
        assert (Q : (In a [x; y; z] /\ In b [x; y; z] /\ In c [x; y; z]) \/ (In c [x; y; z] /\ In d [x; y; z] /\ In a [x; y; z])
                 \/ (In a [x; y; z] /\ In b [x; y; z] /\ In d [x; y; z]) \/ (In d [x; y; z] /\ In b [x; y; z] /\ In c [x; y; z])).
        { cbn in Hx, Hy, Hz. cbn. destruct Hx as [<-|[<-|[<-|[<-|[]]]]]; destruct Hy as [<-|[<-|[<-|[<-|[]]]]]; try congruence;
            destruct Hz as [<-|[<-|[<-|[<-|[]]]]]; try congruence; auto 12. }
        destruct Q as [Q|[Q|[Q|Q]]]; destruct Q as (Q1 & Q2 & Q3).
        + exists [a; b; c]. split; [cbn; auto|]. apply PP; auto. repeat constructor; cbn; intuition.
        + exists [c; d; a]. split; [cbn; auto|]. apply PP; auto. repeat constructor; cbn; intuition.
        + exists [a; b; d]. split; [cbn; auto|]. apply PP; auto. repeat constructor; cbn; intuition.
        + exists [d; b; c]. split; [cbn; auto|]. apply PP; auto. repeat constructor; cbn; intuition. }
    destruct G as (G & HG & HP). apply in_map_iff. exists G. split; [|exact HG]. rewrite <- (np_sort_id F HS). apply np_sort_perm_eq. symmetry; exact HP.
  - intros H. apply in_map_iff in H as (G & <- & HG). destruct (local_facets_props G HG) as (A & B & C).
    split; [apply np_sort_NoDup_lt, A|]. split; [rewrite zlen_np_sort; exact B|]. intros x Hx. apply C. apply (proj1 (np_sort_In x G)). exact Hx.
Qed.

Lemma local_facets_len : zlen (local_facets dim r) = dim + 1.
Proof. clear Hlen Hnd. destruct Hdim as [-> | ->]; reflexivity. Qed.

Lemma local_facets_sorted_NoDup : NoDup (map np_sort (local_facets dim r)).
Proof.
  assert (Inj : forall A B x, In x A -> ~ In x B -> np_sort A <> np_sort B).
  { intros A B x HA HB E. apply HB. apply np_sort_In. rewrite <- E. apply np_sort_In. exact HA. }
  destruct Hdim as [-> | ->].
  - destruct (list3 r Hlen) as (a & b & c & E). rewrite E in *. clear E.
    assert (a <> b /\ b <> c /\ a <> c).
    { apply nodup3; exact Hnd. }
    unfold local_facets. cbn [Z.eqb Pos.eqb map].
    change (nthZ 0 [a; b; c] 0) with a. change (nthZ 0 [a; b; c] 1) with b. change (nthZ 0 [a; b; c] 2) with c.
    constructor; [|constructor; [|constructor; [|constructor]]]; cbn [In].
    + intros [H0|[H0|[]]]; revert H0; apply (Inj _ _ c); cbn; intuition.
    + intros [H0|[]]; revert H0. apply (Inj _ _ a); cbn; intuition.
    + intros [].
  - destruct (list4 r Hlen) as (a & b & c & d & E). rewrite E in *. clear E.
    assert (a <> b /\ b <> c /\ a <> c /\ a <> d /\ b <> d /\ c <> d).
    { apply nodup4; exact Hnd. }
    unfold local_facets. cbn [Z.eqb Pos.eqb map].
    change (nthZ 0 [a; b; c; d] 0) with a. change (nthZ 0 [a; b; c; d] 1) with b. change (nthZ 0 [a; b; c; d] 2) with c. change (nthZ 0 [a; b; c; d] 3) with d.
    constructor; [|constructor; [|constructor; [|constructor; [|constructor]]]]; cbn [In].
    + intros [H0|[H0|[H0|[]]]]; revert H0; apply (Inj _ _ d); cbn; intuition.
    + intros [H0|[H0|[]]]; revert H0; apply (Inj _ _ b); cbn; intuition.
    + intros [H0|[]]; revert H0. apply (Inj _ _ c); cbn; intuition.
    + intros [].
Qed.
End Facets.

(** ** the raw face arrays *)
Lemma set_mid {A} (a b : list A) z v : set (a ++ z :: b) (zlen a) v = Ok (a ++ v :: b).
Proof.
  rewrite set_upd. 2: { rewrite zlen_app, zlen_cons. pose proof (zlen_nonneg a); pose proof (zlen_nonneg b); lia. }
  f_equal. unfold upd, zlen. rewrite Nat2Z.id. induction a as [|x a IH]; cbn; [reflexivity|]. rewrite IH. reflexivity.
Qed.
Lemma set_mid' {A} (a b : list A) z v k : k = zlen a -> set (a ++ z :: b) k v = Ok (a ++ v :: b).
Proof. intros ->; apply set_mid. Qed.

Lemma zeros_like_cons {A} (v : A) n : 0 < n -> zeros_like v n = v :: zeros_like v (n - 1).
Proof.
  intros H. unfold zeros_like. replace n with ((n - 1) + 1) at 1 by lia. rewrite range_S_shift by lia. cbn. rewrite map_map. reflexivity.
Qed.
Lemma zeros_like_nil {A} (v : A) n : n <= 0 -> zeros_like v n = [].
Proof. intros H. unfold zeros_like. rewrite range_neg by lia. reflexivity. Qed.

Lemma zlen_flat_map {A B} (f : A -> list B) k l : (forall x, In x l -> zlen (f x) = k) -> zlen (flat_map f l) = k * zlen l.
Proof.
  induction l as [|x l IH]; intros H; cbn [flat_map]; [change (0 = k * 0); lia|].
  rewrite zlen_app, zlen_cons, IH, H; [lia | left; reflexivity | intros; apply H; right; assumption].
Qed.
Lemma nthZ_flat_map {A B} (f : A -> list B) k l da db i j : 0 < k -> (forall x, In x l -> zlen (f x) = k) ->
  0 <= i < zlen l -> 0 <= j < k -> nthZ db (flat_map f l) (k * i + j) = nthZ db (f (nthZ da l i)) j.
Proof.
  intros Hk H. revert i. induction l as [|x l IH]; intros i Hi Hj; [exfalso; unfold zlen in Hi; cbn in Hi; lia|]. rewrite zlen_cons in Hi. cbn [flat_map].
  pose proof (H x (or_introl eq_refl)) as Hx.
  destruct (Z.eq_dec i 0) as [->|Hne].
  - rewrite nthZ_0. rewrite nthZ_app_l by lia. f_equal; lia.
  - rewrite nthZ_cons by lia. rewrite nthZ_app_r by (rewrite Hx; nia). rewrite Hx.
    replace (k * i + j - k) with (k * (i - 1) + j) by lia. apply IH; [intros; apply H; right; assumption | lia | exact Hj].
Qed.

Section Build.
Context (dim nbnodes : Z) (cells : list (list Z)).
Hypothesis WF : wf_mesh dim nbnodes cells.
Let nb := zlen cells.

Definition cellf_row (i : Z) : list Z := map (fun j => (dim + 1) * i + j) (range (dim + 1)).

Lemma raw_faces_ok :
  (if dim =? 2 then create_2dfaces cells nb (zeros_like (zeros_like 0 dim) ((dim + 1) * nb)) (zeros_like (zeros_like 0 (dim + 1)) nb)
   else create_3dfaces cells nb (zeros_like (zeros_like 0 dim) ((dim + 1) * nb)) (zeros_like (zeros_like 0 (dim + 1)) nb))
  = Ok (flat_map (local_facets dim) cells, map cellf_row (range nb)).
Proof.
  assert (Hnb : 0 <= nb) by apply zlen_nonneg.
  pose (I := fun (k : Z) (s : Z * list (list Z) * list (list Z)) =>
     s = ((dim + 1) * k, flat_map (local_facets dim) (firstn (Z.to_nat k) cells) ++ zeros_like (zeros_like 0 dim) ((dim + 1) * (nb - k)),
          map cellf_row (range k) ++ zeros_like (zeros_like 0 (dim + 1)) (nb - k))).
  assert (Hlf : forall r, zlen (local_facets dim r) = dim + 1) by (intros; apply local_facets_len, (wm_dim _ _ _ WF)).
  assert (Hfl : forall k, 0 <= k <= nb -> zlen (flat_map (local_facets dim) (firstn (Z.to_nat k) cells)) = (dim + 1) * k).
  { intros k Hk. rewrite (zlen_flat_map _ (dim + 1)) by (intros; apply Hlf). f_equal. unfold zlen, nb, zlen in *. rewrite firstn_length. lia. }
  assert (Hsn : forall k, 0 <= k < nb -> firstn (Z.to_nat (k + 1)) cells = firstn (Z.to_nat k) cells ++ [nthZ [] cells k]).
  { intros k Hk. unfold nb, zlen, nthZ in *. replace (Z.to_nat (k + 1)) with (S (Z.to_nat k)) by lia.
    assert (Hlt : (Z.to_nat k < length cells)%nat) by lia. clear -Hlt. revert Hlt. generalize (Z.to_nat k). induction cells as [|x l IH]; intros [|n] H; cbn in *; try lia; [reflexivity|]. f_equal. apply IH; lia. }
  destruct (wm_dim _ _ _ WF) as [Ed | Ed].
  - rewrite Ed in *. cbn [Z.eqb Pos.eqb]. unfold create_2dfaces.
    destruct (foldM_range_inv I (fun '(k, faces, cellf) i =>
      do n0 <- get2 cells i 0; do n1 <- get2 cells i 1; do n2 <- get2 cells i 2;
      do faces <- set faces k [n0; n1];
      do faces <- set faces (k + 1) [n1; n2];
      do faces <- set faces (k + 2) [n2; n0];
      do cellf <- set cellf i [k; k + 1; k + 2];
      ret (k + 3, faces, cellf)) nb (0, zeros_like (zeros_like 0 2) ((2 + 1) * nb), zeros_like (zeros_like 0 (2 + 1)) nb)) as (s & E & HI).
    + exact Hnb.
    + unfold I. rewrite Ed, Z.mul_0_r, Z.sub_0_r. reflexivity.
    + intros i s Hi ->. rewrite Ed in *.
      assert (Hrl : zlen (nthZ [] cells i) = 3) by (destruct (wm_rows _ _ _ WF (nthZ [] cells i)) as (HH & _); [apply nthZ_In; exact Hi | exact HH]).
      rewrite !(get2_nthZ 0) by (fold nb; lia). cbn [bind].
      rewrite (zeros_like_cons _ ((2 + 1) * (nb - i))) by lia. rewrite (zeros_like_cons _ ((2 + 1) * (nb - i) - 1)) by lia. rewrite (zeros_like_cons _ ((2 + 1) * (nb - i) - 1 - 1)) by lia.
      rewrite (zeros_like_cons _ (nb - i)) by lia.
      rewrite set_mid' by (rewrite Hfl; lia). cbn [bind].
      match goal with |- context [set (?a ++ ?v :: ?z :: ?b) ?k ?w] => replace (a ++ v :: z :: b) with ((a ++ [v]) ++ z :: b) by (rewrite <- app_assoc; reflexivity) end.
      rewrite set_mid' by (rewrite zlen_app, Hfl by lia; rewrite zlen_cons, zlen_nil; lia). cbn [bind].
      match goal with |- context [set (?a ++ ?v :: ?z :: ?b) ?k ?w] => replace (a ++ v :: z :: b) with ((a ++ [v]) ++ z :: b) by (rewrite <- app_assoc; reflexivity) end.
      rewrite set_mid' by (rewrite !zlen_app, Hfl by lia; rewrite !zlen_cons, !zlen_nil; lia). cbn [bind].
      rewrite set_mid' by (rewrite zlen_map, zlen_range; lia). cbn [bind].
      eexists; split; [reflexivity|]. unfold I. rewrite Ed. rewrite Hsn by lia. rewrite flat_map_app. cbn [flat_map]. rewrite app_nil_r, range_succ, map_app by lia. cbn [map].
      replace ((2 + 1) * (nb - i) - 1 - 1 - 1) with ((2 + 1) * (nb - (i + 1))) by lia. replace (nb - i - 1) with (nb - (i + 1)) by lia.
      rewrite <- !app_assoc. apply f_equal2; [apply f_equal2; [lia|]|].
      * reflexivity.
      * f_equal. cbn [app]. f_equal. unfold cellf_row. rewrite Ed. change (range (2 + 1)) with [0; 1; 2]. cbn [map]. repeat (apply f_equal2; [lia|]). reflexivity.
    + rewrite E. rewrite HI. cbn [bind]. rewrite Ed. rewrite Z.sub_diag, Z.mul_0_r. unfold nb, zlen. rewrite Nat2Z.id, firstn_all. cbn [zeros_like]. rewrite !zeros_like_nil by lia. rewrite !app_nil_r. reflexivity.
  - rewrite Ed in *. cbn [Z.eqb Pos.eqb]. unfold create_3dfaces.
    destruct (foldM_range_inv I (fun '(k, faces, cellf) i =>
      do n0 <- get2 cells i 0; do n1 <- get2 cells i 1; do n2 <- get2 cells i 2; do n3 <- get2 cells i 3;
      do faces <- set faces k [n0; n1; n2];
      do faces <- set faces (k + 1) [n2; n3; n0];
      do faces <- set faces (k + 2) [n0; n1; n3];
      do faces <- set faces (k + 3) [n3; n1; n2];
      do cellf <- set cellf i [k; k + 1; k + 2; k + 3];
      ret (k + 4, faces, cellf)) nb (0, zeros_like (zeros_like 0 3) ((3 + 1) * nb), zeros_like (zeros_like 0 (3 + 1)) nb)) as (s & E & HI).
    + exact Hnb.
    + unfold I. rewrite Ed, Z.mul_0_r, Z.sub_0_r. reflexivity.
    + intros i s Hi ->. rewrite Ed in *.
      assert (Hrl : zlen (nthZ [] cells i) = 4) by (destruct (wm_rows _ _ _ WF (nthZ [] cells i)) as (HH & _); [apply nthZ_In; exact Hi | exact HH]).
      rewrite !(get2_nthZ 0) by (fold nb; lia). cbn [bind].
      rewrite (zeros_like_cons _ ((3 + 1) * (nb - i))) by lia. rewrite (zeros_like_cons _ ((3 + 1) * (nb - i) - 1)) by lia. rewrite (zeros_like_cons _ ((3 + 1) * (nb - i) - 1 - 1)) by lia.
      rewrite (zeros_like_cons _ ((3 + 1) * (nb - i) - 1 - 1 - 1)) by lia.
      rewrite (zeros_like_cons _ (nb - i)) by lia.
      rewrite set_mid' by (rewrite Hfl; lia). cbn [bind].
      match goal with |- context [set (?a ++ ?v :: ?z :: ?b) ?k ?w] => replace (a ++ v :: z :: b) with ((a ++ [v]) ++ z :: b) by (rewrite <- app_assoc; reflexivity) end.
      rewrite set_mid' by (rewrite zlen_app, Hfl by lia; rewrite zlen_cons, zlen_nil; lia). cbn [bind].
      match goal with |- context [set (?a ++ ?v :: ?z :: ?b) ?k ?w] => replace (a ++ v :: z :: b) with ((a ++ [v]) ++ z :: b) by (rewrite <- app_assoc; reflexivity) end.
      rewrite set_mid' by (rewrite !zlen_app, Hfl by lia; rewrite !zlen_cons, !zlen_nil; lia). cbn [bind].
      match goal with |- context [set (?a ++ ?v :: ?z :: ?b) ?k ?w] => replace (a ++ v :: z :: b) with ((a ++ [v]) ++ z :: b) by (rewrite <- app_assoc; reflexivity) end.
      rewrite set_mid' by (rewrite !zlen_app, Hfl by lia; rewrite !zlen_cons, !zlen_nil; lia). cbn [bind].
      rewrite set_mid' by (rewrite zlen_map, zlen_range; lia). cbn [bind].
      eexists; split; [reflexivity|]. unfold I. rewrite Ed. rewrite Hsn by lia. rewrite flat_map_app. cbn [flat_map]. rewrite app_nil_r, range_succ, map_app by lia. cbn [map].
      replace ((3 + 1) * (nb - i) - 1 - 1 - 1 - 1) with ((3 + 1) * (nb - (i + 1))) by lia. replace (nb - i - 1) with (nb - (i + 1)) by lia.
      rewrite <- !app_assoc. apply f_equal2; [apply f_equal2; [lia|]|].
      * reflexivity.
      * f_equal. cbn [app]. f_equal. unfold cellf_row. rewrite Ed. change (range (3 + 1)) with [0; 1; 2; 3]. cbn [map]. repeat (apply f_equal2; [lia|]). reflexivity.
    + rewrite E. rewrite HI. cbn [bind]. rewrite Ed. rewrite Z.sub_diag, Z.mul_0_r. unfold nb, zlen. rewrite Nat2Z.id, firstn_all. rewrite !zeros_like_nil by lia. rewrite !app_nil_r. reflexivity.
Qed.

Definition the_faces : list (list Z) := urows (map np_sort (flat_map (local_facets dim) cells)).
Definition the_faceid_row (r : list Z) : list Z := map (fun F => row_index (np_sort F) the_faces) (local_facets dim r).

Lemma faceid_ok :
  create_cell_faceid nb (map (fun r => row_index r the_faces) (map np_sort (flat_map (local_facets dim) cells))) (map cellf_row (range nb))
     (zeros_like (zeros_like 0 (dim + 1)) nb) dim = Ok (map the_faceid_row cells).
Proof.
  assert (Hnb : 0 <= nb) by apply zlen_nonneg.
  assert (Hlf : forall r, zlen (local_facets dim r) = dim + 1) by (intros; apply local_facets_len, (wm_dim _ _ _ WF)).
  pose proof (wm_dim _ _ _ WF) as Hd.
  unfold create_cell_faceid.
  rewrite (foldM_ext_inv (fun t : list (list Z) => zlen t = nb) _
    (fun t i => do x <- get t i; do y <- (fun i x => foldM (fun row j => do y <- get (the_faceid_row (nthZ [] cells i)) j; set row j y) (range (dim + 1)) x) i x; set t i y)).
  - rewrite (foldM_pointwise [] _ (fun i => the_faceid_row (nthZ [] cells i))).
    + f_equal. rewrite <- (map_map (nthZ [] cells) the_faceid_row). unfold nb. rewrite map_nthZ_range. reflexivity.
    + apply zlen_zeros_like; exact Hnb.
    + intros i Hi. rewrite nthZ_zeros_like by lia.
      assert (HLr : zlen (the_faceid_row (nthZ [] cells i)) = dim + 1) by (unfold the_faceid_row; rewrite zlen_map; apply Hlf).
      destruct (foldM_range_inv (fun k row => zlen row = dim + 1 /\ (forall j, 0 <= j < k -> nthZ 0 row j = nthZ 0 (the_faceid_row (nthZ [] cells i)) j))
         (fun row j => do y <- get (the_faceid_row (nthZ [] cells i)) j; set row j y) (dim + 1) (zeros_like 0 (dim + 1))) as (row & E & H1 & H2).
      * lia.
      * split; [apply zlen_zeros_like; lia | lia].
      * intros k row Hk (H1 & H2). rewrite (get_nthZ 0) by lia. cbn [bind]. rewrite set_upd by lia. eexists; split; [reflexivity|]. rewrite zlen_upd. split; [exact H1|].
        intros j Hj. rewrite nthZ_upd by lia. destruct (Z.eqb_spec j k); [subst; reflexivity|]. apply H2; lia.
      * rewrite E. f_equal. apply (nthZ_ext 0); [lia|]. intros j Hj. apply H2; lia.
  - apply zlen_zeros_like; exact Hnb.
  - intros t i Ht Hi. apply in_range in Hi. rewrite (get_nthZ []) by lia. cbn [bind].
    rewrite <- row_loop by lia. split.
    + apply foldM_ext. intros s j Hj. apply in_range in Hj.
      assert (Hcr : nthZ [] (map cellf_row (range nb)) i = cellf_row i) by (rewrite (nthZ_map _ 0) by (rewrite zlen_range; lia); rewrite nthZ_range by lia; reflexivity).
      rewrite (get2_nthZ 0); [|rewrite zlen_map, zlen_range; lia |].
      2: { rewrite Hcr. unfold cellf_row. rewrite zlen_map, zlen_range; lia. }
      rewrite Hcr. cbn [bind]. unfold cellf_row. rewrite (nthZ_map _ 0) by (rewrite zlen_range; lia). rewrite nthZ_range by lia.
      assert (HLF : zlen (flat_map (local_facets dim) cells) = (dim + 1) * nb) by (apply zlen_flat_map; intros; apply Hlf).
      rewrite (get_nthZ 0) by (rewrite !zlen_map, HLF; nia). rewrite map_map. rewrite (nthZ_map _ []) by (rewrite HLF; nia).
      rewrite (nthZ_flat_map _ _ _ [] []) by (try (intros; apply Hlf); fold nb; lia).
      rewrite (get_nthZ 0) by (unfold the_faceid_row; rewrite zlen_map, Hlf; lia). unfold the_faceid_row. rewrite (nthZ_map _ []) by (rewrite Hlf; lia). reflexivity.
    + intros s'. rewrite row_loop by lia. destruct (foldM _ _ _) as [row'|e]; cbn [bind]; [|discriminate]. rewrite set_upd by lia. intros [= <-]. rewrite zlen_upd; exact Ht.
Qed.

(** ** facts about the face table *)
Lemma cell_props c : iscell cells c -> zlen (cell cells c) = dim + 1 /\ NoDup (cell cells c).
Proof. intros H. destruct (wm_rows _ _ _ WF (cell cells c)) as (A & B & _); [apply nthZ_In; exact H|]. auto. Qed.

Lemma the_faces_In F : In F the_faces <-> exists c, has_facet dim cells c F.
Proof.
  unfold the_faces. rewrite urows_In, in_map_iff. setoid_rewrite in_flat_map. split.
  - intros (G & <- & r & Hr & HG). destruct (In_nthZ [] _ _ Hr) as (c & Hc & E). exists c. split; [exact Hc|]. unfold cell. rewrite E.
    destruct (wm_rows _ _ _ WF r Hr) as (A & B & _). apply facet_of_local; auto; [apply (wm_dim _ _ _ WF)|]. apply in_map; exact HG.
  - intros (c & Hc & HF). destruct (cell_props c Hc) as (A & B). apply facet_of_local in HF; auto; [|apply (wm_dim _ _ _ WF)].
    apply in_map_iff in HF as (G & <- & HG). exists G. split; [reflexivity|]. exists (cell cells c). split; [apply nthZ_In; exact Hc | exact HG].
Qed.
Lemma the_faces_NoDup : NoDup the_faces. Proof. apply urows_NoDup. Qed.

Lemma faceid_row_spec c : iscell cells c -> forall j, 0 <= j < dim + 1 ->
  let f := nthZ 0 (the_faceid_row (cell cells c)) j in
  0 <= f < zlen the_faces /\ nthZ [] the_faces f = np_sort (nthZ [] (local_facets dim (cell cells c)) j).
Proof.
  intros Hc j Hj. cbv zeta. pose proof (local_facets_len dim (cell cells c) (wm_dim _ _ _ WF)) as HL.
  unfold the_faceid_row. rewrite (nthZ_map _ []) by lia. apply row_index_spec.
  unfold the_faces. apply urows_In, in_map, in_flat_map. exists (cell cells c). split; [apply nthZ_In; exact Hc | apply nthZ_In; lia].
Qed.

Lemma faceid_row_mem c f : iscell cells c -> 0 <= f < zlen the_faces ->
  (mem f (the_faceid_row (cell cells c)) = true <-> has_facet dim cells c (nthZ [] the_faces f)).
Proof.
  intros Hc Hf. destruct (cell_props c Hc) as (A & B). rewrite mem_In. unfold has_facet. rewrite facet_of_local; auto; [|apply (wm_dim _ _ _ WF)].
  unfold the_faceid_row. rewrite !in_map_iff. split.
  - intros (F & E & HF). split; [exact Hc|]. exists F. split; [|exact HF]. rewrite <- E.
    symmetry. apply row_index_spec. unfold the_faces. apply urows_In, in_map, in_flat_map. exists (cell cells c). split; [apply nthZ_In; exact Hc | exact HF].
  - intros (_ & F & E & HF). exists F. split; [|exact HF]. rewrite E. apply row_index_unique; [apply the_faces_NoDup | exact Hf].
Qed.

Lemma faceid_row_NoDup c : iscell cells c -> NoDup (the_faceid_row (cell cells c)).
Proof.
  intros Hc. destruct (cell_props c Hc) as (A & B). unfold the_faceid_row. rewrite <- (map_map np_sort (fun F => row_index F the_faces)).
  assert (HN := local_facets_sorted_NoDup dim (cell cells c) (wm_dim _ _ _ WF) A B).
  assert (HI : forall F, In F (map np_sort (local_facets dim (cell cells c))) -> In F the_faces).
  { intros F HF. apply the_faces_In. exists c. split; [exact Hc|]. apply facet_of_local; auto. apply (wm_dim _ _ _ WF). }
  revert HN HI. generalize (map np_sort (local_facets dim (cell cells c))). induction l as [|F l IH]; intros HN HI; cbn; constructor.
  - intros Hin. apply in_map_iff in Hin as (G & E & HG). inversion HN as [|? ? Hx HN']; subst. apply Hx.
    destruct (row_index_spec F the_faces) as (_ & E1); [apply HI; left; reflexivity|]. destruct (row_index_spec G the_faces) as (_ & E2); [apply HI; right; exact HG|].
    rewrite E in E2. rewrite E1 in E2. subst. exact HG.
  - apply IH; [inversion HN; assumption | intros; apply HI; right; assumption].
Qed.
End Build.
