(** * Proofs_conn3: face-cell adjacency, neighbours by face, opposite nodes (C11-C14) *)
From Verif Require Import Py PyLemmas Scatter Model_conn Spec_conn Proofs_conn1 Proofs_conn2.
From Coq Require Import Permutation Sorting.Sorted ZifyBool.

(** ** loop helpers *)
Lemma upd_upd {A} (l : list A) i v w : upd (upd l i v) i w = upd l i w.
Proof. unfold upd. generalize (Z.to_nat i). induction l as [|y l IH]; intros [|k]; cbn; try reflexivity. rewrite IH; reflexivity. Qed.

Lemma append_row_ok {A} (h : Z -> res A) (v : Z -> A) i js : forall t : list (list A), 0 <= i < zlen t -> (forall j, In j js -> h j = Ok (v j)) ->
  foldM (fun t j => do x <- h j; append_at t i x) js t = Ok (upd t i (nthZ [] t i ++ map v js)).
Proof.
  induction js as [|j js IH]; intros t Hi H; cbn [foldM map].
  - rewrite app_nil_r, upd_same by exact Hi. reflexivity.
  - rewrite H by (left; reflexivity). cbn [bind]. rewrite append_at_upd by exact Hi. cbn [bind].
    rewrite IH; [|rewrite zlen_upd; exact Hi | intros; apply H; right; assumption].
    rewrite nthZ_upd_eq by exact Hi. rewrite upd_upd, <- app_assoc. reflexivity.
Qed.

Lemma mapM_get2_row (rows : list (list Z)) i m : 0 <= i < zlen rows -> zlen (nthZ [] rows i) = m ->
  mapM (fun j => get2 rows i j) (range m) = Ok (nthZ [] rows i).
Proof.
  intros Hi Hm. rewrite <- (mapM_range_get_id (nthZ [] rows i) m) by lia. apply mapM_ext. intros j _. unfold get2. rewrite (get_nthZ []) by exact Hi. reflexivity.
Qed.

(** ** the one node of a cell outside a facet *)
Lemma filter_split_len {A} (p : A -> bool) l : zlen (filter p l) + zlen (filter (fun x => negb (p x)) l) = zlen l.
Proof. induction l as [|x l IH]; [reflexivity|]. cbn [filter]. destruct (p x); cbn [negb]; rewrite ?zlen_cons; lia. Qed.
Lemma opposite_one r F : NoDup r -> NoDup F -> incl F r -> zlen r = zlen F + 1 -> exists n, filter (fun x => negb (mem x F)) r = [n].
Proof.
  intros Hr HF HI HL. pose proof (filter_split_len (fun x => mem x F) r) as E.
  assert (P : Permutation (filter (fun x => mem x F) r) F).
  { apply NoDup_Permutation; [apply NoDup_filter; exact Hr | exact HF|]. intros x. rewrite filter_In, mem_In. split; [tauto|]. intros H; split; [apply HI; exact H | exact H]. }
  assert (zlen (filter (fun x => mem x F) r) = zlen F) by (unfold zlen; rewrite (Permutation_length P); reflexivity).
  destruct (filter (fun x => negb (mem x F)) r) as [|n [|m l]]; rewrite ?zlen_cons in E; unfold zlen in *; cbn in *; try lia. eauto.
Qed.

Definition gC (r : list Z) (i : Z) : list Z :=
  let a := nthZ 0 r 0 in let a' := if a =? -1 then i else a in [a'; if a' =? i then nthZ 0 r 1 else i].

Lemma cells_of_face_step_ok t i f : 0 <= f < zlen t -> zlen (nthZ [] t f) = 2 ->
  cells_of_face_step i t f = Ok (upd t f (gC (nthZ [] t f) i)).
Proof.
  intros Hf H2. unfold cells_of_face_step. destruct (list2 _ H2) as (a & b & E).
  assert (Hz : forall x y : Z, zlen [x; y] = 2) by reflexivity.
  rewrite (get2_nthZ 0) by (rewrite ?E, ?Hz; lia). rewrite E. change (nthZ 0 [a; b] 0) with a. cbn [bind].
  assert (Es : forall (t' : list (list Z)) j v, 0 <= f < zlen t' -> 0 <= j < 2 -> zlen (nthZ [] t' f) = 2 -> set2 t' f j v = Ok (upd t' f (upd (nthZ [] t' f) j v))).
  { intros t' j v H1 H3 H4. unfold set2. rewrite (get_nthZ []) by exact H1. cbn [bind]. rewrite set_upd by lia. cbn [bind]. apply set_upd; exact H1. }
  unfold gC. change (nthZ 0 [a; b] 0) with a. change (nthZ 0 [a; b] 1) with b. cbv zeta.
  destruct (Z.eqb_spec a (-1)) as [Ha|Ha].
  - rewrite Es by (rewrite ?E, ?Hz; lia). cbn [bind]. rewrite E. change (upd [a; b] 0 i) with [i; b].
    rewrite (get2_nthZ 0) by (rewrite ?zlen_upd, ?nthZ_upd_eq, ?Hz by exact Hf; lia). rewrite nthZ_upd_eq by exact Hf. change (nthZ 0 [i; b] 0) with i. cbn [bind].
    rewrite Z.eqb_refl. reflexivity.
  - cbn [bind]. rewrite (get2_nthZ 0) by (rewrite ?E, ?Hz; lia). rewrite E. change (nthZ 0 [a; b] 0) with a. cbn [bind].
    destruct (Z.eqb_spec a i) as [Hi|Hi]; cbn [negb].
    + rewrite <- E. rewrite upd_same by exact Hf. reflexivity.
    + rewrite Es by (rewrite ?E, ?Hz; lia). rewrite E. reflexivity.
Qed.

Lemma gC_fold_rest c L : forall b, c <> -1 -> (forall x, In x L -> x <> c) -> fold_left gC L [c; b] = [c; last L b].
Proof.
  induction L as [|x L IH]; intros b Hc H; [reflexivity|]. cbn [fold_left].
  assert (E : gC [c; b] x = [c; x]).
  { unfold gC. change (nthZ 0 [c; b] 0) with c. cbv zeta. destruct (Z.eqb_spec c (-1)); [congruence|].
    destruct (Z.eqb_spec c x); [exfalso; apply (H x); [left; reflexivity | congruence]|]. reflexivity. }
  rewrite E, IH; [|exact Hc | intros; apply H; right; assumption].
  f_equal. f_equal. destruct L as [|y L]; [reflexivity|]. change (last (x :: y :: L) b) with (last (y :: L) b).
  clear. revert y. induction L as [|z L IH]; intros y; [reflexivity|]. change (last (z :: L) x = last (z :: L) b). apply IH.
Qed.
Lemma gC_fold L : StronglySorted Z.lt L -> (forall x, In x L -> 0 <= x) -> L <> [] -> fold_left gC L [-1; -1] = [hd (-1) L; last (tl L) (-1)].
Proof.
  destruct L as [|c L]; intros HS H0 Hne; [congruence|]. cbn [fold_left hd tl].
  assert (E : gC [-1; -1] c = [c; -1]) by (unfold gC; change (nthZ 0 [-1; -1] 0) with (-1); cbv zeta; rewrite Z.eqb_refl, Z.eqb_refl; reflexivity).
  rewrite E. apply gC_fold_rest; [specialize (H0 c (or_introl eq_refl)); lia|]. inversion HS as [|? ? _ HF]; subst. rewrite Forall_forall in HF. intros x Hx. specialize (HF x Hx). lia.
Qed.

Section Build3.
Context (dim nbnodes : Z) (cells : list (list Z)).
Hypothesis WF : wf_mesh dim nbnodes cells.
Let nb := zlen cells.
Let faces := the_faces dim cells.
Let nbf := zlen faces.
Let fid c := the_faceid_row dim cells (cell cells c).

(** the cells having face f, increasing *)
Definition having (f : Z) : list Z := filter (fun c => mem f (the_faceid_row dim cells (cell cells c))) (range (zlen cells)).
Definition cellrow (f : Z) : list Z := [hd (-1) (having f); last (tl (having f)) (-1)].

Lemma having_In f c : 0 <= f < nbf -> (In c (having f) <-> has_facet dim cells c (nthZ [] faces f)).
Proof.
  intros Hf. unfold having. rewrite filter_In, in_range. split.
  - intros (Hc & H). eapply faceid_row_mem; eauto.
  - intros H. pose proof (proj1 H) as Hc. split; [exact Hc|]. eapply faceid_row_mem; eauto.
Qed.
Lemma having_sorted f : StronglySorted Z.lt (having f). Proof. apply sorted_lt_filter, Sorted_lt_range. Qed.
Lemma having_nonneg f x : In x (having f) -> 0 <= x < nb. Proof. unfold having. rewrite filter_In, in_range. tauto. Qed.
Lemma having_nonempty f : 0 <= f < nbf -> having f <> [].
Proof.
  intros Hf. assert (H : In (nthZ [] faces f) faces) by (apply nthZ_In; exact Hf). apply (the_faces_In dim nbnodes cells WF) in H as (c & Hc).
  apply having_In in Hc; [|exact Hf]. destruct (having f); [destruct Hc | congruence].
Qed.
Lemma fid_rng c f : iscell cells c -> In f (fid c) -> 0 <= f < nbf.
Proof.
  intros Hc Hf. apply (In_nthZ 0) in Hf as (j & Hj & <-).
  unfold fid, the_faceid_row in Hj. rewrite zlen_map, local_facets_len in Hj by apply (wm_dim _ _ _ WF).
  apply (faceid_row_spec dim nbnodes cells WF c Hc j Hj).
Qed.
Lemma fid_len c : zlen (fid c) = dim + 1.
Proof. unfold fid, the_faceid_row. rewrite zlen_map. apply local_facets_len, (wm_dim _ _ _ WF). Qed.

Lemma cellid_ok : create_cellsOfFace (map (the_faceid_row dim cells) cells) nb (zeros_like [-1; -1] nbf) dim = Ok (map cellrow (range nbf)).
Proof.
  unfold create_cellsOfFace. set (FI := map (the_faceid_row dim cells) cells).
  assert (HL : zlen FI = nb) by apply zlen_map.
  assert (Hrow : forall i, 0 <= i < nb -> nthZ [] FI i = fid i) by (intros i Hi; unfold FI; rewrite (nthZ_map _ []) by exact Hi; reflexivity).
  rewrite <- HL. rewrite (nested_rows (fun t i f => cells_of_face_step i t f) FI (dim + 1)) by (intros i Hi; rewrite Hrow by lia; apply fid_len).
  rewrite HL. set (P := pairs_of (fun i => nthZ [] FI i) (range nb)).
  assert (Hnf : 0 <= nbf) by apply zlen_nonneg.
  assert (HP : forall p, In p P -> 0 <= snd p < nbf).
  { intros p Hp. apply pairs_of_In in Hp as (H1 & H2). apply in_range in H1. rewrite Hrow in H2 by exact H1. eapply fid_rng; eauto. }
  assert (G : forall (P : list (Z * Z)) t, zlen t = nbf -> (forall f, 0 <= f < nbf -> zlen (nthZ [] t f) = 2) -> (forall p, In p P -> 0 <= snd p < nbf) ->
     foldM (fun s p => cells_of_face_step (fst p) s (snd p)) P t = foldM (scat_step gC) P t).
  { clear. induction P as [|[i f] P IH]; intros t HL H2 HP; [reflexivity|]. cbn [foldM fst snd]. pose proof (HP _ (or_introl eq_refl)) as Hf; cbn in Hf.
    rewrite cells_of_face_step_ok by (rewrite ?H2; lia). rewrite (scat_step_ok []) by lia. cbn [bind]. apply IH; [rewrite zlen_upd; exact HL| |intros; apply HP; right; assumption].
    intros f' Hf'. rewrite nthZ_upd by lia. destruct (f' =? f); [reflexivity | apply H2; exact Hf']. }
  rewrite G; [| apply zlen_zeros_like; exact Hnf | intros f Hf; rewrite nthZ_zeros_like by exact Hf; reflexivity | exact HP].
  destruct (scat_spec [] gC P (zeros_like [-1; -1] nbf)) as (s & E & HLs & HS).
  { intros p Hp. rewrite zlen_zeros_like by exact Hnf. apply HP; exact Hp. }
  rewrite E. f_equal. rewrite zlen_zeros_like in * by exact Hnf. apply (nthZ_ext []); [rewrite zlen_map, zlen_range; lia|]. intros f Hf.
  rewrite (nthZ_map _ 0) by (rewrite zlen_range; lia). rewrite nthZ_range by lia. rewrite HS by lia. rewrite nthZ_zeros_like by lia.
  unfold P. rewrite labels_pairs_of.
  2: { intros x Hx. apply in_range in Hx. rewrite Hrow by exact Hx. eapply faceid_row_NoDup; eauto. }
  rewrite (filter_ext_in _ (fun c => mem f (fid c))) by (intros c Hc; apply in_range in Hc; rewrite Hrow by exact Hc; reflexivity).
  change (filter (fun c => mem f (fid c)) (range nb)) with (having f).
  apply gC_fold; [apply having_sorted | intros x Hx; apply having_nonneg in Hx; lia | apply having_nonempty; lia].
Qed.

(** neighbour by face *)
Definition nbr (i f : Z) : Z :=
  if last (tl (having f)) (-1) =? -1 then -1 else if i =? hd (-1) (having f) then last (tl (having f)) (-1) else hd (-1) (having f).

Lemma cellfid_ok : create_NeighborCellByFace (map (the_faceid_row dim cells) cells) (map cellrow (range nbf)) nb dim
  = Ok (map (fun i => map (nbr i) (fid i)) (range nb)).
Proof.
  unfold create_NeighborCellByFace. pose proof (zlen_nonneg cells) as Hnb. fold nb in Hnb.
  set (FI := map (the_faceid_row dim cells) cells). set (CI := map cellrow (range nbf)).
  assert (HLF : zlen FI = nb) by apply zlen_map.
  assert (Hrow : forall i, 0 <= i < nb -> nthZ [] FI i = fid i) by (intros i Hi; unfold FI; rewrite (nthZ_map _ []) by exact Hi; reflexivity).
  assert (HCL : zlen CI = nbf) by (unfold CI; rewrite zlen_map, zlen_range; [reflexivity | apply zlen_nonneg]).
  assert (HC : forall f, 0 <= f < nbf -> nthZ [] CI f = cellrow f).
  { intros f Hf. unfold CI. rewrite (nthZ_map _ 0) by (rewrite zlen_range; lia). rewrite nthZ_range by lia. reflexivity. }
  rewrite (foldM_ext_inv (fun t : list (list Z) => zlen t = nb) _
     (fun t i => do x <- get t i; do y <- (fun i x => Ok (x ++ map (nbr i) (fid i))) i x; set t i y)).
  - rewrite (foldM_pointwise [] _ (fun i => map (nbr i) (fid i))); [reflexivity | apply zlen_zeros_like; lia|].
    intros i Hi. rewrite nthZ_zeros_like by lia. reflexivity.
  - apply zlen_zeros_like; lia.
  - intros t i Ht Hi. apply in_range in Hi. split.
    + rewrite (get_nthZ []) by lia. cbn [bind]. rewrite set_upd by lia.
      transitivity (foldM (fun t j => do x <- get (map (nbr i) (fid i)) j; append_at t i x) (range (dim + 1)) t).
      * apply foldM_ext. intros t' j Hj. apply in_range in Hj. pose proof (fid_len i) as HLi.
        rewrite (get2_nthZ 0) by (rewrite ?Hrow; lia). rewrite Hrow by lia. cbn [bind].
        rewrite (get_nthZ 0) by (rewrite zlen_map; lia). rewrite (nthZ_map _ 0) by lia. cbn [bind].
        set (f := nthZ 0 (fid i) j). assert (Hf : 0 <= f < nbf) by (eapply fid_rng; [exact Hi | apply nthZ_In; lia]).
        assert (Hz : zlen (nthZ [] CI f) = 2) by (rewrite HC by exact Hf; reflexivity).
        rewrite (get2_nthZ 0) by lia. rewrite HC by exact Hf. unfold nbr, cellrow. set (h0 := hd (-1) (having f)). set (h1 := last (tl (having f)) (-1)).
        change (nthZ 0 [h0; h1] 1) with h1. cbn [bind]. destruct (Z.eqb_spec h1 (-1)); cbn [negb]; [reflexivity|].
        rewrite (get2_nthZ 0) by lia. rewrite HC by exact Hf. unfold cellrow. fold h0 h1. change (nthZ 0 [h0; h1] 0) with h0. cbn [bind]. destruct (i =? h0); reflexivity.
      * assert (HLm : zlen (map (nbr i) (fid i)) = dim + 1) by (rewrite zlen_map; apply fid_len).
        rewrite (append_row_ok _ (nthZ 0 (map (nbr i) (fid i)))) by (try lia; intros j Hj; apply in_range in Hj; apply get_nthZ; lia).
        rewrite <- HLm, map_nthZ_range. reflexivity.
    + intros s'. rewrite (get_nthZ []) by lia. cbn [bind]. rewrite set_upd by lia. intros [= <-]. rewrite zlen_upd; exact Ht.
Qed.

(** opposite nodes *)
Definition outside (c f : Z) : list Z := filter (fun n => negb (mem n (nthZ [] (the_faces dim cells) f))) (cell cells c).
Definition opps (f : Z) : list Z := flat_map (fun c => outside c f) (having f).

Lemma fold_flat {A C} (g : list C -> A -> list C) (h : A -> list C) (l : list A) acc :
  (forall r x, g r x = r ++ h x) -> fold_left g l acc = acc ++ flat_map h l.
Proof.
  intros H. revert acc; induction l as [|x l IH]; intros acc; cbn; [rewrite app_nil_r; reflexivity|].
  rewrite IH, H, <- app_assoc. reflexivity.
Qed.

Lemma opp_ok : exists opp, create_oppNodeOfFaces dim cells (map (the_faceid_row dim cells) cells) faces nb nbf = Ok opp /\
  zlen opp = nbf /\ forall f, 0 <= f < nbf -> nthZ [] opp f = if zlen (opps f) <? 2 then opps f ++ [-1] else opps f.
Proof.
  unfold create_oppNodeOfFaces. pose proof (zlen_nonneg cells) as Hnb. fold nb in Hnb. pose proof (zlen_nonneg faces) as Hnf. fold nbf in Hnf.
  set (FI := map (the_faceid_row dim cells) cells).
  assert (HLF : zlen FI = nb) by apply zlen_map.
  assert (Hrow : forall i, 0 <= i < nb -> nthZ [] FI i = fid i) by (intros i Hi; unfold FI; rewrite (nthZ_map _ []) by exact Hi; reflexivity).
  pose (g := fun (r : list Z) (x : Z * Z) => r ++ (if mem (fst x) (nthZ [] faces (snd x)) then [] else [fst x])).
  pose (pr := fun i => flat_map (fun n => map (fun f => ((n, f), f)) (fid i)) (cell cells i)).
  pose (P := flat_map pr (range nb)).
  assert (HP : forall p, In p P -> 0 <= snd p < nbf).
  { intros p Hp. apply in_flat_map in Hp as (i & Hi & Hp). apply in_range in Hi. apply in_flat_map in Hp as (n & Hn & Hp).
    apply in_map_iff in Hp as (f & <- & Hf). cbn. eapply fid_rng; eauto. }
  assert (Hstep : forall t n f, zlen t = nbf -> 0 <= f < nbf -> opp_step faces t n f = scat_step g t ((n, f), f)).
  { intros t n f Ht Hf. unfold opp_step. rewrite (get_nthZ []) by exact Hf. cbn [bind]. rewrite (scat_step_ok []) by lia. unfold g. cbn [fst snd].
    destruct (mem n (nthZ [] faces f)); cbn [negb]; [rewrite app_nil_r, upd_same by lia; reflexivity | apply append_at_upd; lia]. }
  assert (E1 : foldM (fun opp i =>
      do fs <- mapM (fun j => get2 FI i j) (range (dim + 1));
      do ns <- mapM (fun j => get2 cells i j) (range (dim + 1));
      foldM (fun opp n => foldM (fun opp f => opp_step faces opp n f) fs opp) ns opp) (range nb) (zeros_like [] nbf)
    = foldM (scat_step g) P (zeros_like [] nbf)).
  { unfold P.
    assert (K : forall is t, (forall i, In i is -> 0 <= i < nb) -> zlen t = nbf ->
       foldM (fun opp i =>
        do fs <- mapM (fun j => get2 FI i j) (range (dim + 1));
        do ns <- mapM (fun j => get2 cells i j) (range (dim + 1));
        foldM (fun opp n => foldM (fun opp f => opp_step faces opp n f) fs opp) ns opp) is t
       = foldM (scat_step g) (flat_map pr is) t).
    { induction is as [|i is IH]; intros t Hin Ht; [reflexivity|]. cbn [foldM flat_map]. rewrite foldM_app.
      pose proof (Hin i (or_introl eq_refl)) as Hi.
      rewrite (mapM_get2_row FI) by (rewrite ?Hrow by exact Hi; try apply fid_len; lia). rewrite Hrow by exact Hi. cbn [bind].
      rewrite (mapM_get2_row cells) by (fold nb; first [exact Hi | apply (cell_props dim nbnodes cells WF); exact Hi]). cbn [bind]. fold (cell cells i).
      assert (J : forall ns t, zlen t = nbf -> foldM (fun opp n => foldM (fun opp f => opp_step faces opp n f) (fid i) opp) ns t
          = foldM (scat_step g) (flat_map (fun n => map (fun f => ((n, f), f)) (fid i)) ns) t).
      { assert (J0 : forall n fs t, (forall f, In f fs -> 0 <= f < nbf) -> zlen t = nbf ->
           foldM (fun opp f => opp_step faces opp n f) fs t = foldM (scat_step g) (map (fun f => ((n, f), f)) fs) t).
        { induction fs as [|f fs IHf]; intros t0 Hfs Ht0; [reflexivity|]. cbn [foldM map]. rewrite Hstep by (try exact Ht0; apply Hfs; left; reflexivity).
          rewrite (scat_step_ok []) by (rewrite Ht0; apply Hfs; left; reflexivity). cbn [bind]. apply IHf; [intros; apply Hfs; right; assumption | rewrite zlen_upd; exact Ht0]. }
        induction ns as [|n ns IHn]; intros t0 Ht0; [reflexivity|]. cbn [foldM flat_map]. rewrite foldM_app.
        rewrite J0 by (try exact Ht0; intros f Hf; eapply fid_rng; eauto).
        destruct (scat_spec [] g (map (fun f => ((n, f), f)) (fid i)) t0) as (s & Es & HLs & _).
        { intros p Hp. apply in_map_iff in Hp as (f & <- & Hf). cbn. rewrite Ht0. eapply fid_rng; eauto. }
        rewrite Es. cbn [bind]. apply IHn. lia. }
      rewrite J by exact Ht. fold (pr i).
      destruct (scat_spec [] g (pr i) t) as (s & Es & HLs & _).
      { intros p Hp. rewrite Ht. apply HP. unfold P. apply in_flat_map. exists i. split; [apply in_range; exact Hi | exact Hp]. }
      rewrite Es. cbn [bind]. apply IH; [intros; apply Hin; right; assumption | lia]. }
    apply K; [intros i Hi; apply in_range; exact Hi | apply zlen_zeros_like; exact Hnf]. }
  rewrite E1.
  destruct (scat_spec [] g P (zeros_like [] nbf)) as (s & Es & HLs & HS).
  { intros p Hp. rewrite zlen_zeros_like by exact Hnf. apply HP; exact Hp. }
  rewrite Es. cbn [bind]. rewrite zlen_zeros_like in * by exact Hnf.
  assert (Hs : forall f, 0 <= f < nbf -> nthZ [] s f = opps f).
  { intros f Hf. rewrite HS by exact Hf. rewrite nthZ_zeros_like by exact Hf.
    rewrite (fold_flat g (fun x => if mem (fst x) (nthZ [] faces (snd x)) then [] else [fst x])) by reflexivity. cbn [app].
    unfold opps, having, P. fold nb. clear -WF Hf.
    assert (Q : forall is, (forall i, In i is -> 0 <= i < nb) ->
      flat_map (fun x : Z * Z => if mem (fst x) (nthZ [] faces (snd x)) then [] else [fst x]) (labels_at f (flat_map pr is))
      = flat_map (fun c => outside c f) (filter (fun c => mem f (the_faceid_row dim cells (cell cells c))) is)).
    { induction is as [|i is IH]; intros Hin; [reflexivity|]. cbn [flat_map filter]. rewrite labels_at_app, flat_map_app.
      rewrite IH by (intros; apply Hin; right; assumption).
      pose proof (faceid_row_NoDup dim nbnodes cells WF i (Hin i (or_introl eq_refl))) as HN. fold (fid i) in HN |- *.
      assert (Q1 : labels_at f (pr i) = if mem f (fid i) then map (fun n => (n, f)) (cell cells i) else []).
      { unfold pr. induction (cell cells i) as [|n ns IHn]; cbn [flat_map map]; [destruct (mem f (fid i)); reflexivity|].
        rewrite labels_at_app, IHn.
        assert (Q2 : labels_at f (map (fun f0 => ((n, f0), f0)) (fid i)) = if mem f (fid i) then [(n, f)] else []).
        { clear -HN. induction (fid i) as [|k l IHl]; [reflexivity|]. apply NoDup_cons_iff in HN as (Hk & HN). specialize (IHl HN).
          unfold labels_at in *. cbn [map filter snd]. unfold mem. cbn [existsb]. fold (mem f l). rewrite (Z.eqb_sym k f). destruct (Z.eqb_spec f k) as [->|Hne]; cbn [orb map fst].
          - rewrite IHl. apply mem_not_In in Hk. rewrite Hk. reflexivity.
          - exact IHl. }
        rewrite Q2. destruct (mem f (fid i)); reflexivity. }
      rewrite Q1. destruct (mem f (fid i)); [|reflexivity]. cbn [flat_map]. apply f_equal2; [|reflexivity]. unfold outside. fold faces. clear Q1.
      induction (cell cells i) as [|n ns IHn]; [reflexivity|]. cbn [map flat_map filter fst snd]. rewrite IHn. destruct (mem n (nthZ [] faces f)); reflexivity. }
    apply Q. intros i Hi; apply in_range; exact Hi. }
  rewrite (foldM_ext_inv (fun t : list (list Z) => zlen t = nbf) _
     (fun t i => do x <- get t i; do y <- (fun i x => Ok (if zlen x <? 2 then x ++ [-1] else x)) i x; set t i y)).
  - rewrite (foldM_pointwise [] _ (fun f => if zlen (opps f) <? 2 then opps f ++ [-1] else opps f)); [| exact HLs |].
    + eexists; split; [reflexivity|]. split; [rewrite zlen_map, zlen_range; lia|]. intros f Hf. rewrite (nthZ_map _ 0) by (rewrite zlen_range; lia). rewrite nthZ_range by lia. reflexivity.
    + intros f Hf. rewrite Hs by lia. reflexivity.
  - exact HLs.
  - intros t i Ht Hi. apply in_range in Hi. rewrite (get_nthZ []) by lia. cbn [bind]. split.
    + destruct (zlen (nthZ [] t i) <? 2).
      * rewrite append_at_upd by lia. symmetry; apply set_upd; lia.
      * rewrite set_upd by lia. rewrite upd_same by lia. reflexivity.
    + intros s'. rewrite set_upd by lia. intros [= <-]. rewrite zlen_upd; exact Ht.
Qed.

Lemma build_faces_ok : exists opp, build_faces dim cells = Ok {| cn_faces := faces; cn_faceid := map (the_faceid_row dim cells) cells;
    cn_cellid := map cellrow (range nbf); cn_cellfid := map (fun i => map (nbr i) (fid i)) (range nb); cn_opp := opp |} /\
  zlen opp = nbf /\ forall f, 0 <= f < nbf -> nthZ [] opp f = if zlen (opps f) <? 2 then opps f ++ [-1] else opps f.
Proof.
  destruct opp_ok as (opp & E & HL & H). exists opp. split; [|split; assumption].
  unfold build_faces. cbv zeta. rewrite (raw_faces_ok dim nbnodes cells WF). cbn [bind].
  change (np_unique_rows (map np_sort (flat_map (local_facets dim) cells)))
    with (faces, map (fun r => row_index r faces) (map np_sort (flat_map (local_facets dim) cells))).
  cbv beta iota zeta. unfold faces. rewrite (faceid_ok dim nbnodes cells WF). cbn [bind]. fold nb. fold faces. fold nbf.
  rewrite cellid_ok. cbn [bind]. rewrite cellfid_ok. cbn [bind]. rewrite E. reflexivity.
Qed.
End Build3.

(** ** the properties *)
Section Final.
Context (dim nbnodes : Z) (cells : list (list Z)).
Hypothesis WF : wf_mesh dim nbnodes cells.
Let faces := the_faces dim cells.
Let fid c := the_faceid_row dim cells (cell cells c).

Lemma having_cases f : conforming dim cells -> 0 <= f < zlen faces ->
  (exists a, having dim cells f = [a]) \/ (exists a b, having dim cells f = [a; b] /\ a < b).
Proof.
  intros HC Hf. pose proof (having_nonempty dim nbnodes cells WF f Hf) as Hne. pose proof (having_sorted dim cells f) as HS.
  pose proof (fun c => proj1 (having_In dim nbnodes cells WF f c Hf)) as HI.
  destruct (having dim cells f) as [|a [|b [|c l]]]; [congruence | eauto | |].
  - right. exists a, b. split; [reflexivity|]. inversion HS as [|? ? _ HF]; subst. inversion HF; subst; assumption.
  - exfalso. inversion HS as [|? ? HS1 HF]; subst. inversion HS1 as [|? ? HS2 HF1]; subst. rewrite Forall_forall in *.
    pose proof (HF b (or_introl eq_refl)). pose proof (HF c (or_intror (or_introl eq_refl))). pose proof (HF1 c (or_introl eq_refl)).
    destruct (HC (nthZ [] faces f) a b c) as [E|[E|E]]; [apply HI; cbn; auto | apply HI; cbn; auto | apply HI; cbn; auto | lia | lia | lia].
Qed.

Lemma c11 : exists c, build_faces dim cells = Ok c /\
  NoDup (cn_faces c) /\
  (forall F, In F (cn_faces c) <-> exists k, has_facet dim cells k F) /\
  zlen (cn_faceid c) = zlen cells /\
  forall k, iscell cells k -> exists fs, nthZ [] (cn_faceid c) k = fs /\ zlen fs = dim + 1 /\ NoDup fs /\
    (forall f, 0 <= f < zlen (cn_faces c) -> (In f fs <-> has_facet dim cells k (nthZ [] (cn_faces c) f))) /\
    forall j, 0 <= j < dim + 1 -> 0 <= nthZ 0 fs j < zlen (cn_faces c) /\
       Permutation (nthZ [] (cn_faces c) (nthZ 0 fs j)) (nthZ [] (local_facets dim (cell cells k)) j).
Proof.
  destruct (build_faces_ok dim nbnodes cells WF) as (opp & E & _). eexists; split; [exact E|]. cbn [cn_faces cn_faceid].
  split; [apply the_faces_NoDup|]. split; [apply (the_faces_In dim nbnodes cells WF)|]. split; [apply zlen_map|].
  intros k Hk. exists (fid k). rewrite (nthZ_map _ []) by exact Hk. split; [reflexivity|]. split; [eapply fid_len; eauto|].
  split; [eapply faceid_row_NoDup; eauto|]. split.
  - intros f Hf. rewrite <- mem_In. eapply faceid_row_mem; eauto.
  - intros j Hj. destruct (faceid_row_spec dim nbnodes cells WF k Hk j Hj) as (A & B). split; [exact A|]. fold faces in B. unfold faces in B. unfold fid. rewrite B. apply np_sort_perm.
Qed.

Lemma c12 : exists c, build_faces dim cells = Ok c /\ zlen (cn_cellid c) = zlen (cn_faces c) /\
  forall f, 0 <= f < zlen (cn_faces c) -> exists a b, nthZ [] (cn_cellid c) f = [a; b] /\
    has_facet dim cells a (nthZ [] (cn_faces c) f) /\
    (forall k, has_facet dim cells k (nthZ [] (cn_faces c) f) -> a <= k) /\
    (b = -1 <-> forall k, has_facet dim cells k (nthZ [] (cn_faces c) f) -> k = a) /\
    (b <> -1 -> a < b /\ has_facet dim cells b (nthZ [] (cn_faces c) f)) /\
    (conforming dim cells -> b <> -1 -> forall k, has_facet dim cells k (nthZ [] (cn_faces c) f) -> k = a \/ k = b).
Proof.
  destruct (build_faces_ok dim nbnodes cells WF) as (opp & E & _). eexists; split; [exact E|]. cbn [cn_faces cn_cellid].
  split; [rewrite zlen_map, zlen_range; [reflexivity | apply zlen_nonneg]|].
  intros f Hf. rewrite (nthZ_map _ 0) by (rewrite zlen_range; lia). rewrite nthZ_range by lia. unfold cellrow.
  pose proof (having_nonempty dim nbnodes cells WF f Hf) as Hne. pose proof (having_sorted dim cells f) as HS.
  pose proof (fun c => having_In dim nbnodes cells WF f c Hf) as HI. fold faces in HI.
  pose proof (fun HC => having_cases f HC Hf) as HCs.
  pose proof (fun x => having_nonneg dim cells f x) as Hnn.
  destruct (having dim cells f) as [|a L]; [congruence|]. cbn [hd tl]. exists a, (last L (-1)). split; [reflexivity|]. fold faces.
  assert (Hlt : forall x, In x L -> a < x) by (inversion HS as [|? ? _ HF]; subst; rewrite Forall_forall in HF; exact HF).
  assert (Hlast : L <> [] -> In (last L (-1)) L).
  { clear. induction L as [|x L IH]; intros H; [congruence|]. destruct L as [|y L]; [left; reflexivity|]. right. change (In (last (y :: L) (-1)) (y :: L)). apply IH; congruence. }
  split; [apply HI; left; reflexivity|]. split; [|split; [split|split]].
  - intros k Hk. apply HI in Hk as [<-|Hk]; [lia|]. specialize (Hlt k Hk). lia.
  - intros Hb k Hk. apply HI in Hk as [<-|Hk]; [reflexivity|]. exfalso.
    assert (L <> []) by (destruct L; [destruct Hk | congruence]). specialize (Hlast H). rewrite Hb in Hlast. specialize (Hnn (-1) (or_intror Hlast)). lia.
  - intros H. destruct L as [|x L]; [reflexivity|]. exfalso. assert (x = a) by (apply H, HI; right; left; reflexivity). specialize (Hlt x (or_introl eq_refl)). lia.
  - intros Hb. assert (HL : L <> []) by (destruct L; [contradiction Hb; reflexivity | congruence]). specialize (Hlast HL). split; [apply Hlt; exact Hlast | apply HI; right; exact Hlast].
  - intros HC Hb k Hk. apply HI in Hk. destruct (HCs HC) as [(a' & Ea)|(a' & b' & Ea & _)]; inversion Ea; subst; cbn [last In] in *; intuition (subst; auto).
Qed.

Lemma fid_In_at k f : iscell cells k -> In f (fid k) -> exists j, 0 <= j < dim + 1 /\ nthZ 0 (fid k) j = f.
Proof. intros Hk Hf. apply (In_nthZ 0) in Hf as (j & Hj & E). exists j. pose proof (fid_len dim nbnodes cells WF k : zlen (fid k) = dim + 1) as HL. split; [lia | exact E]. Qed.

Lemma c13 : conforming dim cells -> exists c, build_faces dim cells = Ok c /\ zlen (cn_cellfid c) = zlen cells /\
  forall i, iscell cells i -> zlen (nthZ [] (cn_cellfid c) i) = dim + 1 /\ forall j, 0 <= j < dim + 1 ->
    exists f n, nthZ 0 (nthZ [] (cn_faceid c) i) j = f /\ nthZ 0 (nthZ [] (cn_cellfid c) i) j = n /\
      (n = -1 <-> forall k, has_facet dim cells k (nthZ [] (cn_faces c) f) -> k = i) /\
      (n <> -1 -> n <> i /\ has_facet dim cells n (nthZ [] (cn_faces c) f) /\
         exists j', 0 <= j' < dim + 1 /\ nthZ 0 (nthZ [] (cn_faceid c) n) j' = f /\ nthZ 0 (nthZ [] (cn_cellfid c) n) j' = i).
Proof.
  intros HC. destruct (build_faces_ok dim nbnodes cells WF) as (opp & E & _). eexists; split; [exact E|]. cbn [cn_faces cn_cellfid cn_faceid].
  split; [rewrite zlen_map, zlen_range; [reflexivity | apply zlen_nonneg]|].
  assert (Hr : forall i, iscell cells i -> nthZ [] (map (fun i => map (nbr dim cells i) (the_faceid_row dim cells (cell cells i))) (range (zlen cells))) i = map (nbr dim cells i) (fid i)).
  { intros i Hi. unfold iscell in Hi. rewrite (nthZ_map _ 0) by (rewrite zlen_range; lia). rewrite nthZ_range by lia. reflexivity. }
  assert (HF : forall i, iscell cells i -> nthZ [] (map (the_faceid_row dim cells) cells) i = fid i) by (intros i Hi; rewrite (nthZ_map _ []) by exact Hi; reflexivity).
  intros i Hi. rewrite Hr, HF by exact Hi. pose proof (fid_len dim nbnodes cells WF : forall i, zlen (fid i) = dim + 1) as HL.
  split; [rewrite zlen_map; apply HL|]. intros j Hj. specialize (HL i) as HLi.
  set (f := nthZ 0 (fid i) j). exists f, (nbr dim cells i f). split; [reflexivity|]. rewrite (nthZ_map _ 0) by lia. fold f. split; [reflexivity|].
  assert (Hin : In f (fid i)) by (apply nthZ_In; lia).
  assert (Hf : 0 <= f < zlen faces) by (eapply fid_rng; eauto).
  pose proof (fun c => having_In dim nbnodes cells WF f c Hf) as HI. fold faces in HI |- *.
  pose proof (having_nonneg dim cells f) as Hnn.
  assert (Hiin : In i (having dim cells f)) by (apply HI; eapply faceid_row_mem; eauto; apply mem_In; exact Hin).
  assert (Hback : forall n, In n (having dim cells f) -> nbr dim cells n f = i ->
     exists j', 0 <= j' < dim + 1 /\ nthZ 0 (nthZ [] (map (the_faceid_row dim cells) cells) n) j' = f /\
        nthZ 0 (nthZ [] (map (fun i0 => map (nbr dim cells i0) (the_faceid_row dim cells (cell cells i0))) (range (zlen cells))) n) j' = i).
  { intros n Hn En. pose proof (Hnn n Hn) as Hnc. rewrite HF, Hr by exact Hnc.
    assert (Hfn : In f (fid n)) by (apply mem_In; eapply faceid_row_mem; eauto; apply HI; exact Hn).
    destruct (fid_In_at n f Hnc Hfn) as (j' & Hj' & Ej'). exists j'. split; [exact Hj'|]. split; [exact Ej'|]. specialize (HL n).
    rewrite (nthZ_map _ 0) by lia. rewrite Ej'. exact En. }
  remember (nbr dim cells i f) as v eqn:Env. unfold nbr in Env.
  destruct (having_cases f HC Hf) as [(a & Ea)|(a & b & Ea & Hab)]; rewrite Ea in *; cbn [hd tl last] in Env.
  - rewrite Z.eqb_refl in Env. rewrite Env. split; [split; [|reflexivity]|congruence]. intros _ k Hk. apply HI in Hk. cbn in Hk, Hiin. lia.
  - pose proof (Hnn a (or_introl eq_refl)) as B1. pose proof (Hnn b (or_intror (or_introl eq_refl))) as B2.
    destruct (Z.eqb_spec b (-1)); [lia|].
    assert (N1 : nbr dim cells a f = b) by (unfold nbr; rewrite Ea; cbn [hd tl last]; destruct (Z.eqb_spec b (-1)); [lia|]; rewrite Z.eqb_refl; reflexivity).
    assert (N2 : nbr dim cells b f = a) by (unfold nbr; rewrite Ea; cbn [hd tl last]; destruct (Z.eqb_spec b (-1)); [lia|]; destruct (Z.eqb_spec b a); [lia|reflexivity]).
    destruct (Z.eqb_spec i a) as [Hia|Hia].
    + rewrite Env. split; [split; [lia|]|].
      * intros Hall. assert (b = i) by (apply Hall, HI; cbn; auto). lia.
      * intros _. split; [lia|]. split; [apply HI; cbn; auto|]. apply Hback; [cbn; auto | congruence].
    + rewrite Env. assert (Hib : i = b) by (cbn in Hiin; lia). split; [split; [lia|]|].
      * intros Hall. assert (a = i) by (apply Hall, HI; cbn; auto). lia.
      * intros _. split; [lia|]. split; [apply HI; cbn; auto|]. apply Hback; [cbn; auto | congruence].
Qed.

Lemma outside_one c f : 0 <= f < zlen faces -> In c (having dim cells f) -> exists n, outside dim cells c f = [n] /\
  In n (cell cells c) /\ ~ In n (nthZ [] faces f) /\ forall m, In m (cell cells c) -> ~ In m (nthZ [] faces f) -> m = n.
Proof.
  intros Hf Hc. apply having_In with (nbnodes := nbnodes) in Hc; auto. destruct Hc as (Hc & HS & HL & HI). destruct (cell_props dim nbnodes cells WF c Hc) as (A & B).
  destruct (opposite_one (cell cells c) (nthZ [] faces f)) as (n & E).
  { exact B. } { apply sorted_lt_NoDup; exact HS. } { exact HI. } { unfold faces. lia. }
  exists n. split; [exact E|].
  assert (Hn : forall m, In m [n] <-> In m (cell cells c) /\ ~ In m (nthZ [] faces f)).
  { intros m. rewrite <- E, filter_In, negb_true_iff, mem_not_In. reflexivity. }
  destruct (proj1 (Hn n) (or_introl eq_refl)) as (H1 & H2). split; [exact H1|]. split; [exact H2|].
  intros m Hm Hm'. destruct (proj2 (Hn m) (conj Hm Hm')) as [->|[]]. reflexivity.
Qed.

Lemma c14 : conforming dim cells -> exists c, build_faces dim cells = Ok c /\ zlen (cn_opp c) = zlen (cn_faces c) /\
  forall f, 0 <= f < zlen (cn_faces c) -> exists a b n m, nthZ [] (cn_cellid c) f = [a; b] /\ nthZ [] (cn_opp c) f = [n; m] /\
    (forall x, In x (cell cells a) /\ ~ In x (nthZ [] (cn_faces c) f) <-> x = n) /\
    (b = -1 -> m = -1) /\
    (b <> -1 -> forall x, In x (cell cells b) /\ ~ In x (nthZ [] (cn_faces c) f) <-> x = m).
Proof.
  intros HC. destruct (build_faces_ok dim nbnodes cells WF) as (opp & E & HL & HO). eexists; split; [exact E|]. cbn [cn_faces cn_opp cn_cellid].
  split; [exact HL|]. intros f Hf. rewrite (nthZ_map _ 0) by (rewrite zlen_range; lia). rewrite nthZ_range by lia. rewrite HO by exact Hf. fold faces. unfold cellrow, opps.
  pose proof (having_nonneg dim cells f) as Hnn. pose proof (fun c => outside_one c f Hf) as HU.
  destruct (having_cases f HC Hf) as [(a & Ea)|(a & b & Ea & Hab)]; rewrite Ea in *; cbn [hd tl last flat_map].
  - destruct (HU a) as (n & En & H1 & H2 & H3); [cbn; auto|]. rewrite En. cbn [app]. exists a, (-1), n, (-1).
    split; [reflexivity|]. split; [reflexivity|]. split; [intros x; split; [intros (X & Y); auto | intros ->; auto]|]. split; [reflexivity | congruence].
  - destruct (HU a) as (n & En & H1 & H2 & H3); [cbn; auto|]. destruct (HU b) as (m & Em & K1 & K2 & K3); [cbn; auto|]. rewrite En, Em. cbn [app].
    exists a, b, n, m. split; [reflexivity|]. split; [reflexivity|]. split; [intros x; split; [intros (X & Y); auto | intros ->; auto]|].
    split; [pose proof (Hnn b (or_intror (or_introl eq_refl))); lia|]. intros _ x; split; [intros (X & Y); auto | intros ->; auto].
Qed.
End Final.
