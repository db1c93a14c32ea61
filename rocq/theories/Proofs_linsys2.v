(** * Proofs_linsys2: the entries written by the 2D and 3D assembly (C38, C39). *)
From Verif Require Import Py PyLemmas Model_part Model_conn Spec_conn Model_geom Spec_geom Model_halo Model_interp Spec_interp Proofs_conn1 Proofs_interp1 Proofs_interp2 Model_bc Model_linsys Spec_linsys Proofs_linsys1.
From Coq Require Import ZifyBool.
Open Scope Z_scope.

Lemma flat_map_map {A B C} (f : B -> list C) (g : A -> B) l : flat_map f (map g l) = flat_map (fun x => f (g x)) l.
Proof. induction l; cbn; [reflexivity | rewrite IHl; reflexivity]. Qed.
Lemma search_dir S k : (search_element (sy_bcd S) (nthZ 0 (nd_old (sy_N S)) k) =? 0) = negb (is_dir S k).
Proof. unfold search_element, is_dir. destruct (mem _ _); reflexivity. Qed.

Section Two.
Context (S : lsys) (L : sylists) (nf nhg : Z) (WF : wf_lsys 2 S L nf nhg).
(** only periodic nodes have periodic neighbours *)
Definition NP2 : Prop := forall k, 0 <= k < nbnodes S -> is_periodic 2 (nthZ 0 (nd_old (sy_N S)) k) = false -> periodic_neighbours S k = 0.
Let T2 (s : st2) : Prop := True.
Notation em2 := (em (St:=st2) fst NP2 T2 T2).

Lemma em_point2 l r param k v nv (cf : st2 -> pt) p col : row_cells S l r -> (NP2 -> forall s, cf s = p) -> nv = nv_at S k -> v = nthZ vzero (nd_vertex (sy_N S)) k ->
  em2 (fun s => do t <- node_entry S (fst (rows_of S l r)) (snd (rows_of S l r)) param col (alpha nv (disp 2 (cf s) v)) (fst s); Ok (t, cf s)) (pair_entries S l r param (weight 2 S k p) col).
Proof.
  intros HR Hc -> -> s pre rest _ HT. rewrite HT.
  set (es := pair_entries S l r param (alpha (nv_at S k) (disp 2 (cf s) (nthZ vzero (nd_vertex (sy_N S)) k))) col). set (es0 := pair_entries S l r param (weight 2 S k p) col).
  assert (EL : length es = length es0) by (subst es es0; unfold pair_entries; destruct r; reflexivity). assert (EZ : zlen es0 = zlen es) by (unfold zlen; rewrite EL; reflexivity). rewrite EZ.
  destruct (node_entry_ok 2 S L nf nhg WF l r param col (alpha (nv_at S k) (disp 2 (cf s) (nthZ vzero (nd_vertex (sy_N S)) k))) pre rest HR) as (A & B). fold es in A, B. split.
  - intros H. rewrite (A H). cbn [bind]. exists (zlen (pre ++ es), (pre ++ es) ++ skipn (length es) rest, cf s), es. split; [reflexivity|]. split; [exact I|]. split; [|cbn [fst]; rewrite EL; reflexivity].
    split; [subst es es0; unfold pair_entries; destruct r; reflexivity|]. intros HN. subst es es0. rewrite (Hc HN). reflexivity.
  - intros H. rewrite (B H). reflexivity.
Qed.

Lemma em_emit2 r c v : em2 (fun s => emit2 s r c v) [(r, c, v)].
Proof.
  intros s pre rest _ HT. unfold emit2. rewrite HT. change (zlen [(r, c, v)]) with 1. destruct rest as [|x rest].
  - rewrite emit_past. split; [intros H; cbv in H; exfalso; apply H; reflexivity | reflexivity].
  - rewrite emit_ok. cbn [bind]. split; [|intros H; rewrite zlen_cons in H; pose proof (zlen_nonneg rest); lia]. intros _. eexists. exists [(r, c, v)]. split; [reflexivity|]. split; [exact I|]. split; [apply agrees_refl | reflexivity].
Qed.

Lemma node2_ok l r per param k : row_cells S l r -> 0 <= k < nbnodes S -> em2 (node2 S (fst (rows_of S l r)) (snd (rows_of S l r)) per param k) (node_entries 2 S l r per param k).
Proof.
  intros HR Hk. pose proof (wy_N _ _ _ _ _ WF) as WN. destruct (wn_len _ _ _ _ WN) as (L1 & L2 & L3 & L4 & L5 & L6 & L7 & L8). fold (nbnodes S) in *. destruct (wy_rows _ _ _ _ _ WF k Hk) as (R1 & R2 & R3).
  unfold node2, node_entries. cbv zeta. rewrite (get_nthZ 0 (nd_old (sy_N S))) by lia. cbn [bind]. rewrite search_dir. destruct (is_dir S k) eqn:ED; cbn [negb]; [apply em_ret|].
  rewrite (get_nthZ vzero (nd_vertex (sy_N S))) by (unfold nbnodes in *; lia). rewrite (get_nv 2 S L nf nhg WF k Hk).
  rewrite (get_nthZ [] (nd_cellid (sy_N S))), (get_nthZ [] (nd_ghost (sy_N S))), (get_nthZ [] (nd_haloghost (sy_N S))), (get_nthZ [] (nd_haloid (sy_N S))) by lia. cbn [bind].
  unfold around. cbn [Z.eqb Pos.eqb]. rewrite !flat_map_app.
  set (old := nthZ 0 (nd_old (sy_N S)) k).
  apply em_bind with (Q := T2).
  { unfold cells_at. rewrite flat_map_map. apply (em_count _ _ _ _ _ _ (zlen (nd_centerc (sy_N S)))); [apply (wn_cell _ _ _ _ WN k Hk)|]. intros c Hc. apply (wn_cell _ _ _ _ WN k Hk) in Hc.
    rewrite (get_nthZ vzero) by lia. rewrite (get_l2g 2 S L nf nhg WF c) by exact Hc. cbn [bind fst snd]. apply (em_point2 l r param k _ _ (fun _ => nthZ vzero (nd_centerc (sy_N S)) c)); auto. }
  apply em_bind with (Q := T2).
  { unfold ghosts_at. rewrite flat_map_map. apply em_ghost. intros e He. rewrite (get_l2g 2 S L nf nhg WF (g_cell e)) by (apply (wy_ghost _ _ _ _ _ WF k); assumption). cbn [bind fst snd].
    apply (em_point2 l r param k _ _ (fun _ => g_pt e)); auto. }
  apply em_bind with (Q := T2).
  { unfold haloghosts_at. rewrite flat_map_map. apply em_ghost. intros e He. rewrite (get_hext 2 S L nf nhg WF (g_cell e)) by (apply (wy_haloghost _ _ _ _ _ WF k); assumption). cbn [bind fst snd].
    apply (em_point2 l r param k _ _ (fun _ => g_pt e)); auto. }
  apply em_bind with (Q := T2).
  { destruct per; [|apply em_ret]. rewrite (get_nthZ [] (nd_periodic (sy_N S))) by lia. cbn [bind]. unfold periodics_at. rewrite flat_map_map. fold old.
    apply (em_count _ _ _ _ _ _ (nbcells S)); [exact R3|]. intros c Hc. pose proof Hc as Hc0. apply R3 in Hc. unfold nbcells in Hc. rewrite (get_nthZ vzero (nd_centerc (sy_N S))), (get_nthZ vzero (nd_shift (sy_N S))) by lia. rewrite (get_l2g 2 S L nf nhg WF c) by exact Hc. cbn [bind fst snd].
    set (p := nthZ vzero (nd_centerc (sy_N S)) c). set (sh := nthZ vzero (nd_shift (sy_N S)) c).
    apply (em_point2 l r param k _ _ (fun s => if (old =? 33) || (old =? 44) then P3 (px p) (py p + py sh) (pz p) else if (old =? 11) || (old =? 22) then P3 (px p + px sh) (py p) (pz p) else snd s) (image old p sh)); auto.
    intros HN s. unfold image. fold (is_x old) (is_y old).
    assert (E : is_x old || is_y old = true).
    { destruct (is_periodic 2 old) eqn:E; [unfold is_periodic in E; cbn [Z.eqb Pos.eqb andb] in E; rewrite orb_false_r in E; exact E|]. exfalso. specialize (HN k Hk E). unfold periodic_neighbours in HN.
      unfold counted in Hc0. rewrite HN in Hc0. exact Hc0. }
    assert (EZ : is_z old = false) by (unfold is_x, is_y, is_z in *; lia). rewrite EZ.
    destruct (is_y old) eqn:Ey; [replace (is_x old) with false by (unfold is_x, is_y in *; lia); rewrite !Rplus_0_r; reflexivity|]. rewrite orb_false_r in E. rewrite E, !Rplus_0_r. reflexivity. }
  unfold halos_at. rewrite flat_map_map. apply (em_count _ _ _ _ _ _ (nbhalos S)); [exact R2|]. intros h Hh. apply R2 in Hh. unfold nbhalos in Hh. rewrite (get_nthZ vzero) by lia. rewrite (get_hext 2 S L nf nhg WF h) by exact Hh. cbn [bind fst snd].
  apply (em_point2 l r param k _ _ (fun _ => nthZ vzero (nd_centerh (sy_N S)) h)); auto.
Qed.

Lemma nodes_two f : 0 <= f < zlen (fd_cellid (sy_G S)) -> nodes_of S f = [nthZ 0 (nodes_of S f) 0; nthZ 0 (nodes_of S f) 1].
Proof.
  intros Hf. destruct (face_nodes 2 S L nf nhg WF f Hf) as (_ & H & _). destruct (nodes_of S f) as [|a [|b [|c l]]]; try reflexivity; unfold zlen in H; cbn in H; lia.
Qed.
Lemma nodes2_ok l r per next f d : row_cells S l r -> 0 <= f < zlen (fd_cellid (sy_G S)) -> d = dia S f -> next 0 = 1 -> em2 (nodes2 S (fst (rows_of S l r)) (snd (rows_of S l r)) per next d f) (nodes_entries 2 S l r per f).
Proof.
  intros HR Hf -> Hn. destruct (face_nodes 2 S L nf nhg WF f Hf) as (E & _ & HK). unfold nodes2. rewrite E. cbn [bind]. rewrite (nodes_two f Hf) in HK |- *. set (a := nthZ 0 (nodes_of S f) 0) in *. set (b := nthZ 0 (nodes_of S f) 1) in *.
  unfold nodes_entries, weighted_nodes. cbn [Z.eqb Pos.eqb flat_map fst snd]. fold a b. rewrite app_nil_r.
  apply (em_ext _ _ _ _ _ (fun s => do s' <- node2 S (fst (rows_of S l r)) (snd (rows_of S l r)) per (di_p4 (dia S f)) a s; node2 S (fst (rows_of S l r)) (snd (rows_of S l r)) per (di_p2 (dia S f)) b s')).
  { intros s _. cbn [foldM fst snd]. change (get [di_p4 (dia S f); di_p2 (dia S f)] 0) with (Ok (di_p4 (dia S f))). cbn [bind]. destruct (node2 S _ _ per (di_p4 (dia S f)) a s) as [s'|]; [|reflexivity]. cbn [bind fst snd]. rewrite Hn.
    change (get [di_p4 (dia S f); di_p2 (dia S f)] 1) with (Ok (di_p2 (dia S f))). cbn [bind]. destruct (node2 S _ _ per (di_p2 (dia S f)) b s'); reflexivity. }
  apply em_bind with (Q := T2); apply node2_ok; try exact HR; apply HK; [left | right; left]; reflexivity.
Qed.

Lemma inner2_ok f : In f (sl_inner L) -> em2 (fun s => inner2 S s f) (inner_entries 2 S f).
Proof.
  intros Hf. destruct (wy_inner _ _ _ _ _ WF f Hf) as (Hf' & _). destruct (face_left_cell 2 S L nf nhg WF f Hf') as (E1 & B1). destruct (face_right_cell 2 S L nf nhg WF f Hf) as (E2 & B2).
  unfold inner2, inner_entries. cbv zeta. rewrite E1, E2. cbn [bind]. rewrite (get_l2g 2 S L nf nhg WF) by exact B1. rewrite (get_dia 2 S L nf nhg WF f Hf'). cbn [bind].
  rewrite (get_l2g 2 S L nf nhg WF) by exact B2. rewrite !(get_vol 2 S L nf nhg WF) by assumption. cbn [bind Z.eqb Pos.eqb].
  apply em_bind with (Q := T2); [apply em_emit2|]. apply em_bind with (Q := T2); [apply (nodes2_ok (left_cell S f) (Some (right_cell S f))); auto; split; assumption|].
  apply (em_bind _ _ _ T2 _ _ _ [_] [_; _]); [apply em_emit2|]. apply (em_bind _ _ _ T2 _ _ _ [_] [_]); apply em_emit2.
Qed.
Lemma halo2_ok f : In f (sl_halo L) -> em2 (fun s => halo2 S s f) (halo_entries 2 S f).
Proof.
  intros Hf. destruct (wy_halo _ _ _ _ _ WF f Hf) as (Hf' & _). destruct (face_left_cell 2 S L nf nhg WF f Hf') as (E1 & B1). destruct (face_halo 2 S L nf nhg WF f Hf) as (E2 & B2).
  unfold halo2, halo_entries. cbv zeta. rewrite E1, E2. cbn [bind]. rewrite (get_l2g 2 S L nf nhg WF) by exact B1. rewrite (get_dia 2 S L nf nhg WF f Hf'). cbn [bind].
  rewrite (get_hext 2 S L nf nhg WF) by exact B2. rewrite !(get_vol 2 S L nf nhg WF) by assumption. cbn [bind Z.eqb Pos.eqb app].
  apply (em_bind _ _ _ T2 _ _ _ [_] (_ :: _)); [apply em_emit2|]. apply (em_bind _ _ _ T2 _ _ _ [_]); [apply em_emit2|].
  apply (nodes2_ok (left_cell S f) None); auto; split; auto.
Qed.
Lemma dir2_ok f : In f (sl_dir L) -> em2 (fun s => dir2 S s f) (dir_entries 2 S f).
Proof.
  intros Hf. destruct (wy_dir _ _ _ _ _ WF f Hf) as (Hf' & _). destruct (face_left_cell 2 S L nf nhg WF f Hf') as (E1 & B1).
  unfold dir2, dir_entries. cbv zeta. rewrite E1. cbn [bind]. rewrite (get_l2g 2 S L nf nhg WF) by exact B1. rewrite (get_dia 2 S L nf nhg WF f Hf'). cbn [bind].
  rewrite !(get_vol 2 S L nf nhg WF) by assumption. cbn [bind Z.eqb Pos.eqb].
  apply (em_bind _ _ _ T2 _ _ _ [_] [_]); apply em_emit2.
Qed.
Lemma triplet2_ok b : (zlen (all_entries 2 S L) <= zlen b -> exists es, agrees NP2 es (all_entries 2 S L) /\ get_triplet_2d S L b = Ok (es ++ skipn (length es) b)) /\
  (zlen b < zlen (all_entries 2 S L) -> get_triplet_2d S L b = Err IndexError).
Proof.
  assert (H : em2 (fun s => do s <- foldM (inner2 S) (sl_inner L) s; do s <- foldM (halo2 S) (sl_halo L) s; foldM (dir2 S) (sl_dir L) s) (all_entries 2 S L)).
  { unfold all_entries. apply em_bind with (Q := T2); [apply em_fold; apply inner2_ok|]. apply em_bind with (Q := T2); apply em_fold; [apply halo2_ok | apply dir2_ok]. }
  assert (E : get_triplet_2d S L b = do s <- (do s <- foldM (inner2 S) (sl_inner L) ((0, b), p0); do s <- foldM (halo2 S) (sl_halo L) s; foldM (dir2 S) (sl_dir L) s); Ok (snd (fst s))).
  { unfold get_triplet_2d. rewrite bind_assoc. destruct (foldM (inner2 S) _ _) as [s|]; [cbn [bind]|reflexivity]. rewrite bind_assoc. reflexivity. }
  destruct (H ((0, b), p0) [] b I eq_refl) as (A & B). split.
  - intros HL. destruct (A HL) as (s' & es & E1 & _ & AG & T). exists es. split; [exact AG|]. rewrite E, E1. cbn [bind]. rewrite T. cbn [snd app]. rewrite (agrees_len _ _ _ AG). reflexivity.
  - intros HL. rewrite E, (B HL). reflexivity.
Qed.
End Two.

(** ** 3D: [center] is a view *)
Definition strip (e : gentry) : Z * Z * Z := (g_cell e, g_name e, g_last e).
Definition same_but_points (a b : list (list gentry)) : Prop := map (map strip) a = map (map strip) b.
Lemma same_rows a b k : same_but_points a b -> map strip (nthZ [] a k) = map strip (nthZ [] b k).
Proof.
  unfold same_but_points. revert b k. intros b k H. unfold nthZ. apply (f_equal (fun l => nth (Z.to_nat k) l [])) in H.
  change (@nil (Z * Z * Z)) with (map strip []) in H. rewrite !map_nth in H. exact H.
Qed.
Lemma same_len a b : same_but_points a b -> zlen a = zlen b.
Proof. intros H. apply (f_equal (@length _)) in H. rewrite !map_length in H. unfold zlen. rewrite H. reflexivity. Qed.
Lemma same_row_len a b k : same_but_points a b -> zlen (nthZ [] a k) = zlen (nthZ [] b k).
Proof. intros H. apply (same_rows _ _ k) in H. apply (f_equal (@length _)) in H. rewrite !map_length in H. unfold zlen. rewrite H. reflexivity. Qed.
Lemma same_entry a b k j : same_but_points a b -> strip (nthZ gpad (nthZ [] a k) j) = strip (nthZ gpad (nthZ [] b k) j).
Proof.
  intros H. apply (same_rows _ _ k) in H. unfold nthZ at 1 3. apply (f_equal (fun l => nth (Z.to_nat j) l (strip gpad))) in H.
  pose proof (map_nth strip (nthZ [] a k) gpad (Z.to_nat j)) as E1. pose proof (map_nth strip (nthZ [] b k) gpad (Z.to_nat j)) as E2. cbv beta in H. rewrite <- E1, <- E2. exact H.
Qed.
Lemma nthZ_map_d {A B} (f : A -> B) d l i : nthZ (f d) (map f l) i = f (nthZ d l i).
Proof. unfold nthZ. apply map_nth. Qed.
Lemma map_upd {A B} (f : A -> B) l i v : map f (upd l i v) = upd (map f l) i (f v).
Proof. unfold upd. generalize (Z.to_nat i) as n. induction l as [|x l IH]; intros [|n]; cbn; try reflexivity. f_equal. apply IH. Qed.
Lemma upd_same {A} (d : A) l i : upd l i (nthZ d l i) = l.
Proof. unfold upd, nthZ. generalize (Z.to_nat i) as n. induction l as [|x l IH]; intros [|n]; cbn; try reflexivity. f_equal. apply IH. Qed.
Lemma same_assign a b k j p : same_but_points a b -> 0 <= k < zlen a -> 0 <= j < zlen (nthZ [] a k) ->
  exists a', (do e <- get2 a k j; do l <- set2 a k j (set_pt e p); Ok l) = Ok a' /\ same_but_points a' b.
Proof.
  intros H Hk Hj. rewrite (get2_nthZ gpad) by assumption. cbn [bind]. unfold set2. rewrite (get_nthZ []) by exact Hk. cbn [bind]. rewrite set_upd by exact Hj. cbn [bind]. rewrite set_upd by exact Hk. cbn [bind].
  eexists. split; [reflexivity|]. unfold same_but_points in *. rewrite <- H. rewrite map_upd. rewrite <- (upd_same (map strip []) (map (map strip) a) k) at 2. f_equal. rewrite map_upd.
  rewrite (nthZ_map_d (map strip) [] a k). rewrite <- (upd_same (strip gpad) (map strip (nthZ [] a k)) j) at 2. rewrite (nthZ_map_d strip gpad). reflexivity.
Qed.

Section Three.
Context (S : lsys) (L : sylists) (nf nhg : Z) (WF : wf_lsys 3 S L nf nhg).
(** no node has periodic neighbours *)
Definition NP3 : Prop := forall k, 0 <= k < nbnodes S -> periodic_neighbours S k = 0.
Let N := sy_N S.
Definition shape (s : st3) : Prop := zlen (s3_centerc s) = nbcells S /\ zlen (s3_centerh s) = nbhalos S /\ same_but_points (s3_ghost s) (nd_ghost N) /\ same_but_points (s3_haloghost s) (nd_haloghost N) /\
  (NP3 -> s3_centerc s = nd_centerc N /\ s3_centerh s = nd_centerh N /\ s3_ghost s = nd_ghost N /\ s3_haloghost s = nd_haloghost N).
Definition valid (r : cref) : Prop := match r with
  | CCell c => 0 <= c < nbcells S | CHalo h => 0 <= h < nbhalos S
  | CGhost k j => 0 <= k < nbnodes S /\ 0 <= j < zlen (nthZ [] (nd_ghost N) k) | CHaloghost k j => 0 <= k < nbnodes S /\ 0 <= j < zlen (nthZ [] (nd_haloghost N) k) end.
Definition Inv1 (s : st3) : Prop := shape s /\ exists r, s3_center s = Some r /\ valid r.
Definition pristine (r : cref) : pt := match r with
  | CCell c => nthZ vzero (nd_centerc N) c | CHalo h => nthZ vzero (nd_centerh N) h
  | CGhost k j => g_pt (nthZ gpad (nthZ [] (nd_ghost N) k) j) | CHaloghost k j => g_pt (nthZ gpad (nthZ [] (nd_haloghost N) k) j) end.
Lemma ghost_len : zlen (nd_ghost N) = nbnodes S /\ zlen (nd_haloghost N) = nbnodes S.
Proof. destruct (wn_len _ _ _ _ (wy_N _ _ _ _ _ WF)) as (L1 & L2 & L3 & L4 & L5 & L6 & _). split; assumption. Qed.
Lemma deref_ok s r : shape s -> s3_center s = Some r -> valid r -> exists p, deref s = Ok p /\ (NP3 -> p = pristine r).
Proof.
  intros (H1 & H2 & H3 & H4 & HN) E HV. destruct ghost_len as (G1 & G2). unfold deref. rewrite E. destruct r as [c|h|k j|k j]; cbn [valid] in HV.
  - rewrite (get_nthZ vzero) by lia. eexists. split; [reflexivity|]. intros Q. destruct (HN Q) as (-> & _). reflexivity.
  - rewrite (get_nthZ vzero) by lia. eexists. split; [reflexivity|]. intros Q. destruct (HN Q) as (_ & -> & _). reflexivity.
  - rewrite (get2_nthZ gpad) by (rewrite ?(same_len _ _ H3), ?(same_row_len _ _ k H3); lia). eexists. split; [reflexivity|]. intros Q. destruct (HN Q) as (_ & _ & -> & _). reflexivity.
  - rewrite (get2_nthZ gpad) by (rewrite ?(same_len _ _ H4), ?(same_row_len _ _ k H4); lia). eexists. split; [reflexivity|]. intros Q. destruct (HN Q) as (_ & _ & _ & ->). reflexivity.
Qed.
Lemma shape_center s r : shape s -> shape (with_center s r).
Proof. intros H. exact H. Qed.
Lemma shape_t s t : shape s -> shape (with_t s t).
Proof. intros H. exact H. Qed.
Notation em3 := (em (St:=st3) s3_t NP3).

(** once the view is set *)
Lemma em_point3 l r param k v nv col (ref : option cref) : row_cells S l r -> nv = nv_at S k -> v = nthZ vzero (nd_vertex N) k ->
  forall p, (forall s, Inv1 s -> exists q, deref s = Ok q /\ (NP3 -> q = p)) -> em3 Inv1 Inv1 (at_center3 S (fst (rows_of S l r)) (snd (rows_of S l r)) param v nv col) (pair_entries S l r param (weight 3 S k p) col).
Proof.
  intros HR -> -> p HD s pre rest HI HT. destruct (HD s HI) as (q & Eq & Hq). unfold at_center3. rewrite Eq. cbn [bind]. rewrite HT.
  set (a := alpha (nv_at S k) (disp 3 q (nthZ vzero (nd_vertex N) k))). set (es := pair_entries S l r param a col). set (es0 := pair_entries S l r param (weight 3 S k p) col).
  assert (EL : length es = length es0) by (subst es es0; unfold pair_entries; destruct r; reflexivity). assert (EZ : zlen es0 = zlen es) by (unfold zlen; rewrite EL; reflexivity). rewrite EZ.
  destruct (node_entry_ok 3 S L nf nhg WF l r param col a pre rest HR) as (A & B). fold es in A, B. split.
  - intros H. rewrite (A H). cbn [bind]. eexists. exists es. split; [reflexivity|]. split; [exact HI|]. split; [|cbn [s3_t with_t]; rewrite EL; reflexivity].
    split; [subst es es0; unfold pair_entries; destruct r; reflexivity|]. intros HN. subst es es0 a. rewrite (Hq HN). reflexivity.
  - intros H. rewrite (B H). reflexivity.
Qed.
Lemma em_view l r param k v nv col ref : row_cells S l r -> nv = nv_at S k -> v = nthZ vzero (nd_vertex N) k -> valid ref ->
  em3 shape Inv1 (fun s => at_center3 S (fst (rows_of S l r)) (snd (rows_of S l r)) param v nv col (with_center s ref)) (pair_entries S l r param (weight 3 S k (pristine ref)) col).
Proof.
  intros HR -> -> HV s pre rest HI HT. set (s1 := with_center s ref). assert (HI1 : shape s1) by exact HI. destruct (deref_ok s1 ref HI1 eq_refl HV) as (q & Eq & Hq). unfold at_center3. rewrite Eq. cbn [bind]. change (s3_t s1) with (s3_t s). rewrite HT.
  set (a := alpha (nv_at S k) (disp 3 q (nthZ vzero (nd_vertex N) k))). set (es := pair_entries S l r param a col). set (es0 := pair_entries S l r param (weight 3 S k (pristine ref)) col).
  assert (EL : length es = length es0) by (subst es es0; unfold pair_entries; destruct r; reflexivity). assert (EZ : zlen es0 = zlen es) by (unfold zlen; rewrite EL; reflexivity). rewrite EZ.
  destruct (node_entry_ok 3 S L nf nhg WF l r param col a pre rest HR) as (A & B). fold es in A, B. split.
  - intros H. rewrite (A H). cbn [bind]. eexists. exists es. split; [reflexivity|]. split; [split; [exact HI|]; exists ref; split; [reflexivity | exact HV]|]. split; [|cbn [s3_t with_t]; rewrite EL; reflexivity].
    split; [subst es es0; unfold pair_entries; destruct r; reflexivity|]. intros HN. subst es es0 a. rewrite (Hq HN). reflexivity.
  - intros H. rewrite (B H). reflexivity.
Qed.
Lemma inv1_shape s : Inv1 s -> shape s. Proof. intros (H & _). exact H. Qed.
Lemma em_view1 l r param k v nv col ref : row_cells S l r -> nv = nv_at S k -> v = nthZ vzero (nd_vertex N) k -> valid ref ->
  em3 Inv1 Inv1 (fun s => at_center3 S (fst (rows_of S l r)) (snd (rows_of S l r)) param v nv col (with_center s ref)) (pair_entries S l r param (weight 3 S k (pristine ref)) col).
Proof. intros. apply (em_weak _ _ shape Inv1 Inv1 Inv1); [apply inv1_shape | auto | apply em_view; assumption]. Qed.

(** the ghost loops *)
Lemma em_ghosts3 tab tab0 mk col colz k l r param v nv : row_cells S l r -> 0 <= k < nbnodes S -> nv = nv_at S k -> v = nthZ vzero (nd_vertex N) k -> zlen tab0 = nbnodes S ->
  (forall s, Inv1 s -> same_but_points (tab s) tab0) ->
  (forall j, 0 <= j < zlen (nthZ [] tab0 k) -> valid (mk j) /\ pristine (mk j) = g_pt (nthZ gpad (nthZ [] tab0 k) j)) ->
  (forall e, In e (real_ghosts (nthZ [] tab0 k)) -> forall e', strip e' = strip e -> col e' = Ok (colz e)) ->
  em3 Inv1 Inv1 (ghosts3 tab mk col (at_center3 S (fst (rows_of S l r)) (snd (rows_of S l r)) param v nv) k)
    (flat_map (fun e => pair_entries S l r param (weight 3 S k (g_pt e)) (colz e)) (real_ghosts (nthZ [] tab0 k))).
Proof.
  intros HR Hk Hnv Hv HT HS HM HC. unfold ghosts3.
  set (row := nthZ [] tab0 k) in *.
  assert (E : flat_map (fun e => pair_entries S l r param (weight 3 S k (g_pt e)) (colz e)) (real_ghosts row) =
              flat_map (fun j => let e := nthZ gpad row j in if g_last e =? -1 then [] else pair_entries S l r param (weight 3 S k (g_pt e)) (colz e)) (range (zlen row))).
  { transitivity (flat_map (fun e => if g_last e =? -1 then [] else pair_entries S l r param (weight 3 S k (g_pt e)) (colz e)) row).
    - unfold real_ghosts. generalize row. intros t. induction t as [|e t IH]; cbn; [reflexivity|]. destruct (g_last e =? -1); cbn; rewrite IH; reflexivity.
    - rewrite <- (map_nthZ_range gpad row) at 1. rewrite flat_map_map. reflexivity. }
  rewrite E.
  apply (em_ext _ _ _ _ _ (fun s => foldM (fun s j => do e <- get2 (tab s) k j; if g_last e =? -1 then Ok s else do g <- col e; at_center3 S (fst (rows_of S l r)) (snd (rows_of S l r)) param v nv g (with_center s (mk j))) (range (zlen row)) s)).
  { intros s HI. specialize (HS s HI). rewrite (get_nthZ []) by (rewrite (same_len _ _ HS); lia). cbn [bind]. rewrite (same_row_len _ _ k HS). reflexivity. }
  apply em_fold. intros j Hj. apply in_range in Hj. cbv zeta. set (e := nthZ gpad row j).
  assert (G : forall s, Inv1 s -> exists e', get2 (tab s) k j = Ok e' /\ strip e' = strip e).
  { intros s HI. specialize (HS s HI). rewrite (get2_nthZ gpad) by (rewrite ?(same_len _ _ HS), ?(same_row_len _ _ k HS); fold row; lia). eexists. split; [reflexivity|]. apply (same_entry _ _ k j HS). }
  destruct (HM j Hj) as (HV & HP). fold e in HP.
  destruct (g_last e =? -1) eqn:EL.
  - apply (em_ext _ _ _ _ _ (fun s => Ok s)); [|apply em_ret]. intros s HI. destruct (G s HI) as (e' & -> & Es). cbn [bind]. injection Es as _ _ ->. rewrite EL. reflexivity.
  - apply (em_ext _ _ _ _ _ (fun s => at_center3 S (fst (rows_of S l r)) (snd (rows_of S l r)) param v nv (colz e) (with_center s (mk j)))).
    { intros s HI. destruct (G s HI) as (e' & -> & Es). cbn [bind]. rewrite (HC e) by first [exact Es | unfold real_ghosts; apply filter_In; split; [apply nthZ_In; exact Hj | rewrite EL; reflexivity]]. injection Es as _ _ ->. rewrite EL. reflexivity. }
    rewrite <- HP. apply em_view1; assumption.
Qed.

Lemma assign_ok s p : Inv1 s -> ~ NP3 -> exists s', assign s p = Ok s' /\ Inv1 s' /\ s3_t s' = s3_t s.
Proof.
  intros ((H1 & H2 & H3 & H4 & HN) & ref & E & HV) HNP. destruct ghost_len as (G1 & G2). unfold assign. rewrite E. destruct ref as [c|h|k j|k j]; cbn [valid] in HV.
  - rewrite set_upd by lia. cbn [bind]. eexists. split; [reflexivity|]. split; [|reflexivity]. split; [|exists (CCell c); split; [reflexivity | exact HV]]. split; [cbn; rewrite zlen_upd; exact H1|]. split; [exact H2|]. split; [exact H3|]. split; [exact H4 | intros Q; contradiction].
  - rewrite set_upd by lia. cbn [bind]. eexists. split; [reflexivity|]. split; [|reflexivity]. split; [|exists (CHalo h); split; [reflexivity | exact HV]]. split; [exact H1|]. split; [cbn; rewrite zlen_upd; exact H2|]. split; [exact H3|]. split; [exact H4 | intros Q; contradiction].
  - destruct (same_assign _ _ k j p H3) as (a' & Ea & Ha); [rewrite (same_len _ _ H3); lia | rewrite (same_row_len _ _ k H3); lia |].
    destruct (get2 (s3_ghost s) k j) as [e|]; [|discriminate]. cbn [bind] in Ea |- *. destruct (set2 (s3_ghost s) k j (set_pt e p)) as [b|]; [|discriminate]. cbn [bind] in Ea |- *. injection Ea as ->.
    eexists. split; [reflexivity|]. split; [|reflexivity]. split; [|exists (CGhost k j); split; [reflexivity | exact HV]]. split; [exact H1|]. split; [exact H2|]. split; [exact Ha|]. split; [exact H4 | intros Q; contradiction].
  - destruct (same_assign _ _ k j p H4) as (a' & Ea & Ha); [rewrite (same_len _ _ H4); lia | rewrite (same_row_len _ _ k H4); lia |].
    destruct (get2 (s3_haloghost s) k j) as [e|]; [|discriminate]. cbn [bind] in Ea |- *. destruct (set2 (s3_haloghost s) k j (set_pt e p)) as [b|]; [|discriminate]. cbn [bind] in Ea |- *. injection Ea as ->.
    eexists. split; [reflexivity|]. split; [|reflexivity]. split; [|exists (CHaloghost k j); split; [reflexivity | exact HV]]. split; [exact H1|]. split; [exact H2|]. split; [exact H3|]. split; [exact Ha | intros Q; contradiction].
Qed.

Lemma node3_ok l r per param k : row_cells S l r -> 0 <= k < nbnodes S -> em3 shape shape (node3 S (fst (rows_of S l r)) (snd (rows_of S l r)) per param k) (node_entries 3 S l r per param k).
Proof.
  intros HR Hk. pose proof (wy_N _ _ _ _ _ WF) as WN. destruct (wn_len _ _ _ _ WN) as (L1 & L2 & L3 & L4 & L5 & L6 & L7 & L8). fold (nbnodes S) in *. destruct (wy_rows _ _ _ _ _ WF k Hk) as (R1 & R2 & R3).
  unfold node3, node_entries. cbv zeta. rewrite (get_nthZ 0 (nd_old (sy_N S))) by lia. cbn [bind]. rewrite search_dir. destruct (is_dir S k) eqn:ED; cbn [negb]; [apply em_ret|].
  rewrite (get_nthZ vzero (nd_vertex (sy_N S))) by (unfold nbnodes in *; lia). rewrite (get_nv 3 S L nf nhg WF k Hk).
  rewrite (get_nthZ [] (nd_cellid (sy_N S))), (get_nthZ [] (nd_haloid (sy_N S))) by lia. cbn [bind].
  unfold around. cbn [Z.eqb Pos.eqb]. rewrite !flat_map_app.
  set (old := nthZ 0 (nd_old (sy_N S)) k).
  apply em_bind with (Q := Inv1).
  { unfold cells_at. rewrite flat_map_map. apply (em_count_first _ _ _ _ _ _ _ (zlen (nd_centerc (sy_N S)))); [apply (wn_cell _ _ _ _ WN k Hk) | exact R1 | apply inv1_shape |]. intros c Hc. apply (wn_cell _ _ _ _ WN k Hk) in Hc.
    rewrite (get_l2g 3 S L nf nhg WF c) by exact Hc. cbn [bind fst snd]. apply (em_view l r param k _ _ _ (CCell c)); auto. }
  apply em_bind with (Q := Inv1).
  { unfold halos_at. rewrite flat_map_map. apply (em_count _ _ _ _ _ _ (nbhalos S)); [exact R2|]. intros h Hh. apply R2 in Hh. rewrite (get_hext 3 S L nf nhg WF h) by exact Hh. cbn [bind fst snd].
    apply (em_view1 l r param k _ _ _ (CHalo h)); auto. }
  apply em_bind with (Q := Inv1).
  { destruct per; [|apply em_ret]. rewrite (get_nthZ [] (nd_periodic (sy_N S))) by lia. cbn [bind]. unfold periodics_at. rewrite flat_map_map. fold old.
    apply (em_count _ _ _ _ _ _ (nbcells S)); [exact R3|]. intros c Hc. pose proof Hc as Hc0. apply R3 in Hc.
    assert (HNP : ~ NP3). { intros Q. specialize (Q k Hk). unfold periodic_neighbours in Q. unfold counted in Hc0. rewrite Q in Hc0. exact Hc0. }
    cbn [fst snd]. set (p := image old _ _).
    pose proof (em_point3 l r param k _ _ (global_cell S c) None HR eq_refl eq_refl p) as EP.
    assert (HD : forall s, Inv1 s -> exists q, deref s = Ok q /\ (NP3 -> q = p)).
    { intros s (Hs & ref & E & HV). destruct (deref_ok s ref Hs E HV) as (q & Eq & _). exists q. split; [exact Eq | intros Q; contradiction]. }
    specialize (EP HD). intros s pre rest HI HT.
    assert (EC : exists q, get (s3_centerc s) c = Ok q). { destruct HI as ((Q1 & _) & _). eexists. apply (get_nthZ vzero). lia. } destruct EC as (q & Eq).
    rewrite Eq, (get_nthZ vzero (nd_shift (sy_N S))) by (unfold nbcells in Hc; lia). cbn [bind].
    assert (EA : exists s', match axis_shift 3 old with Some f => assign s (f q (nthZ vzero (nd_shift (sy_N S)) c)) | None => Ok s end = Ok s' /\ Inv1 s' /\ s3_t s' = s3_t s).
    { destruct (axis_shift 3 old) as [g|]; [apply assign_ok; assumption | exists s; split; [reflexivity | split; [exact HI | reflexivity]]]. }
    destruct EA as (s' & -> & HI' & HT'). cbn [bind]. rewrite (get_l2g 3 S L nf nhg WF c) by exact Hc. cbn [bind]. rewrite <- HT' in HT. exact (EP s' pre rest HI' HT). }
  destruct ghost_len as (G1 & G2).
  apply em_bind with (Q := Inv1).
  { unfold ghosts_at. rewrite flat_map_map. cbn [fst snd]. apply (em_ghosts3 s3_ghost (nd_ghost (sy_N S)) (CGhost k) (fun e => get (sy_l2g S) (g_cell e)) (fun e => global_cell S (g_cell e))); auto.
    - intros s ((_ & _ & Q & _) & _). exact Q.
    - intros j Hj. split; [split; assumption | reflexivity].
    - intros e He e' Es. injection Es as -> _ _. apply (get_l2g 3 S L nf nhg WF). apply (wy_ghost _ _ _ _ _ WF k); assumption. }
  apply (em_weak _ _ Inv1 Inv1); [auto | apply inv1_shape |].
  unfold haloghosts_at. rewrite flat_map_map. cbn [fst snd]. apply (em_ghosts3 s3_haloghost (nd_haloghost (sy_N S)) (CHaloghost k) (fun e => get2 (sy_hext S) (g_cell e) 0) (fun e => global_halo S (g_cell e))); auto.
  - intros s ((_ & _ & _ & Q & _) & _). exact Q.
  - intros j Hj. split; [split; assumption | reflexivity].
  - intros e He e' Es. injection Es as -> _ _. apply (get_hext 3 S L nf nhg WF). apply (wy_haloghost _ _ _ _ _ WF k); assumption.
Qed.
Lemma em_emit3 r c v : em3 shape shape (fun s => emit3 s r c v) [(r, c, v)].
Proof.
  intros s pre rest HI HT. unfold emit3. rewrite HT. change (zlen [(r, c, v)]) with 1. destruct rest as [|x rest].
  - rewrite emit_past. split; [intros H; cbv in H; exfalso; apply H; reflexivity | reflexivity].
  - rewrite emit_ok. cbn [bind]. split; [|intros H; rewrite zlen_cons in H; pose proof (zlen_nonneg rest); lia]. intros _. eexists. exists [(r, c, v)]. split; [reflexivity|]. split; [exact HI|]. split; [apply agrees_refl | reflexivity].
Qed.
Lemma nodes_three f : 0 <= f < zlen (fd_cellid (sy_G S)) -> forall j, 0 <= j < 3 -> get2 (fd_nodes (sy_G S)) f j = Ok (nthZ 0 (nodes_of S f) j) /\ 0 <= nthZ 0 (nodes_of S f) j < nbnodes S.
Proof.
  intros Hf j Hj. destruct (face_nodes 3 S L nf nhg WF f Hf) as (E & HL & HK). unfold get2. rewrite E. cbn [bind]. rewrite (get_nthZ 0) by lia. split; [reflexivity|]. apply HK, nthZ_In. lia.
Qed.
Lemma nodes3_ok l r per f d : row_cells S l r -> 0 <= f < zlen (fd_cellid (sy_G S)) -> d = dia S f -> em3 shape shape (nodes3 S (fst (rows_of S l r)) (snd (rows_of S l r)) per d f) (nodes_entries 3 S l r per f).
Proof.
  intros HR Hf ->. pose proof (nodes_three f Hf) as HK. destruct (HK 0 ltac:(lia)) as (E0 & B0). destruct (HK 1 ltac:(lia)) as (E1 & B1). destruct (HK 2 ltac:(lia)) as (E2 & B2). clear HK.
  unfold nodes3. rewrite E0, E1, E2. cbn [bind]. unfold nodes_entries, weighted_nodes. cbn [Z.eqb Pos.eqb flat_map fst snd].
  set (a := nthZ 0 (nodes_of S f) 0) in *. set (b := nthZ 0 (nodes_of S f) 1) in *. set (c := nthZ 0 (nodes_of S f) 2) in *. set (d := dia S f). rewrite app_nil_r.
  set (nd := fun p k s => node3 S (fst (rows_of S l r)) (snd (rows_of S l r)) per p k s).
  apply (em_ext _ _ _ _ _ (fun s => do s <- nd (di_p1 d) a s; do s <- nd (di_p2 d) b s; do s <- nd (oopp (di_p1 d)) c s; nd (oopp (di_p2 d)) c s)).
  { intros s _. cbn [foldM fst snd]. set (ps := [di_p1 d; di_p2 d; oopp (di_p1 d); oopp (di_p2 d)]). change (get ps 0) with (Ok (di_p1 d)). cbn [bind]. fold (nd (di_p1 d) a s). destruct (nd (di_p1 d) a s) as [s1|]; [|reflexivity]. cbn [bind fst snd].
    change (get ps (0 + 1)) with (Ok (di_p2 d)). cbn [bind]. fold (nd (di_p2 d) b s1). destruct (nd (di_p2 d) b s1) as [s2|]; [|reflexivity]. cbn [bind fst snd].
    change (get ps (0 + 1 + 1)) with (Ok (oopp (di_p1 d))). cbn [bind]. fold (nd (oopp (di_p1 d)) c s2). destruct (nd (oopp (di_p1 d)) c s2) as [s3|]; [|reflexivity]. cbn [bind fst snd].
    change (get ps (0 + 1 + 1 + 1)) with (Ok (oopp (di_p2 d))). cbn [bind]. fold (nd (oopp (di_p2 d)) c s3). destruct (nd (oopp (di_p2 d)) c s3) as [s4|]; reflexivity. }
  apply em_bind with (Q := shape); [apply node3_ok; assumption|]. apply em_bind with (Q := shape); [apply node3_ok; assumption|]. apply em_bind with (Q := shape); apply node3_ok; assumption.
Qed.
Lemma inner3_ok f : In f (sl_inner L) -> em3 shape shape (fun s => inner3 S s f) (inner_entries 3 S f).
Proof.
  intros Hf. destruct (wy_inner _ _ _ _ _ WF f Hf) as (Hf' & _). destruct (face_left_cell 3 S L nf nhg WF f Hf') as (E1 & B1). destruct (face_right_cell 3 S L nf nhg WF f Hf) as (E2 & B2).
  unfold inner3, inner_entries. cbv zeta. rewrite E1, E2. cbn [bind]. rewrite (get_l2g 3 S L nf nhg WF) by exact B1. rewrite (get_dia 3 S L nf nhg WF f Hf'). cbn [bind].
  rewrite (get_l2g 3 S L nf nhg WF) by exact B2. rewrite !(get_vol 3 S L nf nhg WF) by assumption. cbn [bind Z.eqb Pos.eqb].
  apply em_bind with (Q := shape); [apply em_emit3|]. apply em_bind with (Q := shape); [apply (nodes3_ok (left_cell S f) (Some (right_cell S f))); auto; split; assumption|].
  apply (em_bind _ _ _ shape _ _ _ [_] [_; _]); [apply em_emit3|]. apply (em_bind _ _ _ shape _ _ _ [_] [_]); apply em_emit3.
Qed.
Lemma halo3_ok f : In f (sl_halo L) -> em3 shape shape (fun s => halo3 S s f) (halo_entries 3 S f).
Proof.
  intros Hf. destruct (wy_halo _ _ _ _ _ WF f Hf) as (Hf' & _). destruct (face_left_cell 3 S L nf nhg WF f Hf') as (E1 & B1). destruct (face_halo 3 S L nf nhg WF f Hf) as (E2 & B2).
  unfold halo3, halo_entries. cbv zeta. rewrite E1, E2. cbn [bind]. rewrite (get_l2g 3 S L nf nhg WF) by exact B1. rewrite (get_dia 3 S L nf nhg WF f Hf'). cbn [bind].
  rewrite (get_hext 3 S L nf nhg WF) by exact B2. rewrite !(get_vol 3 S L nf nhg WF) by assumption. cbn [bind Z.eqb Pos.eqb].
  apply em_bind with (Q := shape); [apply (nodes3_ok (left_cell S f) None); auto; split; auto|].
  apply (em_bind _ _ _ shape _ _ _ [_] [_]); apply em_emit3.
Qed.
Lemma dir3_ok f : In f (sl_dir L) -> em3 shape shape (fun s => dir3 S s f) (dir_entries 3 S f).
Proof.
  intros Hf. destruct (wy_dir _ _ _ _ _ WF f Hf) as (Hf' & _). destruct (face_left_cell 3 S L nf nhg WF f Hf') as (E1 & B1).
  unfold dir3, dir_entries. cbv zeta. rewrite E1. cbn [bind]. rewrite (get_l2g 3 S L nf nhg WF) by exact B1. rewrite (get_dia 3 S L nf nhg WF f Hf'). cbn [bind].
  rewrite !(get_vol 3 S L nf nhg WF) by assumption. cbn [bind Z.eqb Pos.eqb].
  apply (em_bind _ _ _ shape _ _ _ [_] [_]); apply em_emit3.
Qed.
Lemma triplet3_ok b : (zlen (all_entries 3 S L) <= zlen b -> exists es cc, agrees NP3 es (all_entries 3 S L) /\ get_triplet_3d S L b = Ok (es ++ skipn (length es) b, cc) /\ (NP3 -> cc = nd_centerc N)) /\
  (zlen b < zlen (all_entries 3 S L) -> get_triplet_3d S L b = Err IndexError).
Proof.
  assert (H : em3 shape shape (fun s => do s <- foldM (inner3 S) (sl_inner L) s; do s <- foldM (halo3 S) (sl_halo L) s; foldM (dir3 S) (sl_dir L) s) (all_entries 3 S L)).
  { unfold all_entries. apply em_bind with (Q := shape); [apply em_fold; apply inner3_ok|]. apply em_bind with (Q := shape); apply em_fold; [apply halo3_ok | apply dir3_ok]. }
  set (s0 := {| s3_t := (0, b); s3_centerc := nd_centerc N; s3_centerh := nd_centerh N; s3_ghost := nd_ghost N; s3_haloghost := nd_haloghost N; s3_center := None |}).
  assert (E : get_triplet_3d S L b = do s <- (do s <- foldM (inner3 S) (sl_inner L) s0; do s <- foldM (halo3 S) (sl_halo L) s; foldM (dir3 S) (sl_dir L) s); Ok (snd (s3_t s), s3_centerc s)).
  { unfold get_triplet_3d. cbv zeta. fold N s0. rewrite bind_assoc. destruct (foldM (inner3 S) _ _) as [s|]; [cbn [bind]|reflexivity]. rewrite bind_assoc. reflexivity. }
  assert (I0 : shape s0). { split; [reflexivity|]. split; [reflexivity|]. split; [reflexivity|]. split; [reflexivity|]. intros _. repeat split. }
  destruct (H s0 [] b I0 eq_refl) as (A & B). split.
  - intros HL. destruct (A HL) as (s' & es & E1 & I1 & AG & T). exists es, (s3_centerc s'). split; [exact AG|]. rewrite E, E1. cbn [bind]. rewrite T. cbn [snd app]. rewrite (agrees_len _ _ _ AG). split; [reflexivity|].
    intros Q. destruct I1 as (_ & _ & _ & _ & HN). destruct (HN Q) as (-> & _). reflexivity.
  - intros HL. rewrite E, (B HL). reflexivity.
Qed.
End Three.
