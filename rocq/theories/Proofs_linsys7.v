(** * Proofs_linsys7: the balance of a cell (C39) and the two right-hand sides (C40). *)
From Verif Require Import Py PyLemmas Model_part Model_conn Spec_conn Model_geom Spec_geom Model_halo Model_interp Spec_interp Proofs_conn1 Proofs_interp1 Proofs_interp2 Proofs_interp4 Model_bc Model_linsys Spec_linsys Proofs_linsys1 Proofs_linsys2 Proofs_linsys3 Proofs_linsys4 Proofs_linsys5 Proofs_linsys6 Proofs_fvm1 Proofs_fvm2.
From Coq Require Import ZifyBool Permutation Lra.
Open Scope Z_scope.

(** ** sums of additions *)
Definition addsum (ads : list (Z * option R)) (i : Z) : option R := fold_right (fun iv s => if fst iv =? i then oadd (snd iv) s else s) (Some 0%R) ads.
Lemma addsum_cons c v l i : addsum ((c, v) :: l) i = if c =? i then oadd v (addsum l i) else addsum l i.
Proof. reflexivity. Qed.
Lemma oadd_assoc a b c : oadd (oadd a b) c = oadd a (oadd b c).
Proof. destruct a, b, c; cbn; try reflexivity. f_equal. ring. Qed.
Lemma oadd_0_l a : oadd (Some 0%R) a = a.
Proof. destruct a; cbn; [f_equal; ring | reflexivity]. Qed.
Lemma addsum_app a b i : addsum (a ++ b) i = oadd (addsum a i) (addsum b i).
Proof. induction a as [|(c, v) a IH]; cbn [app]; [rewrite oadd_0_l; reflexivity|]. rewrite !addsum_cons, IH. destruct (c =? i); [rewrite oadd_assoc|]; reflexivity. Qed.
Lemma addsum_flat {X} (e : X -> list (Z * option R)) (v : X -> R) lst i : (forall y, In y lst -> addsum (e y) i = Some (v y)) -> addsum (flat_map e lst) i = Some (rsum (map v lst)).
Proof.
  induction lst as [|y lst IH]; intros H; cbn [flat_map map]; [reflexivity|]. rewrite addsum_app, H by (left; reflexivity). rewrite IH by (intros; apply H; right; assumption). cbn [oadd]. rewrite rsum_cons. reflexivity.
Qed.
Lemma oadd_at_ok a i v : 0 <= i < zlen a -> oadd_at a i v = Ok (upd a i (oadd (nthZ None a i) v)).
Proof. intros H. unfold oadd_at. rewrite (get_nthZ None) by exact H. cbn [bind]. apply set_upd. exact H. Qed.
Lemma addk_sum ads : forall a, (forall iv, In iv ads -> 0 <= fst iv < zlen a) ->
  exists r, foldM (addk (fun c => c)) ads a = Ok r /\ zlen r = zlen a /\ forall i, 0 <= i < zlen a -> nthZ None r i = oadd (nthZ None a i) (addsum ads i).
Proof.
  induction ads as [|(c, v) ads IH]; intros a H.
  - exists a. split; [reflexivity|]. split; [reflexivity|]. intros i _. cbn. destruct (nthZ None a i); cbn; [f_equal; ring | reflexivity].
  - cbn [foldM]. unfold addk at 1. cbn [fst snd]. pose proof (H _ (or_introl eq_refl)) as Hc. cbn [fst] in Hc. rewrite oadd_at_ok by exact Hc. cbn [bind].
    destruct (IH (upd a c (oadd (nthZ None a c) v))) as (r & E & EL & HR). { intros iv Hiv. rewrite zlen_upd. apply H. right. exact Hiv. }
    rewrite zlen_upd in EL. exists r. split; [exact E|]. split; [exact EL|]. intros i Hi. rewrite HR by (rewrite zlen_upd; exact Hi). rewrite addsum_cons. destruct (c =? i) eqn:Ei.
    + apply Z.eqb_eq in Ei. subst i. rewrite nthZ_upd_eq by exact Hc. apply oadd_assoc.
    + rewrite nthZ_upd_neq by lia. reflexivity.
Qed.
(** the same additions in another numbering *)
Lemma addk_global (key : Z -> Z) n ads : forall a g, (forall iv, In iv ads -> 0 <= fst iv < zlen a) -> (forall c, 0 <= c < zlen a -> 0 <= key c < n) -> (forall c d, 0 <= c < zlen a -> 0 <= d < zlen a -> key c = key d -> c = d) ->
  zlen g = n -> (forall c, 0 <= c < zlen a -> nthZ None g (key c) = nthZ None a c) -> (forall j, 0 <= j < n -> (forall c, 0 <= c < zlen a -> key c <> j) -> nthZ None g j = Some 0%R) ->
  exists r h, foldM (addk (fun c => c)) ads a = Ok r /\ foldM (addk key) ads g = Ok h /\ zlen r = zlen a /\ zlen h = n /\
    (forall c, 0 <= c < zlen a -> nthZ None h (key c) = nthZ None r c) /\ (forall j, 0 <= j < n -> (forall c, 0 <= c < zlen a -> key c <> j) -> nthZ None h j = Some 0%R).
Proof.
  induction ads as [|(c, v) ads IH]; intros a g H HK HI HL HE HO; [exists a, g; cbn; tauto|].
  cbn [foldM]. unfold addk at 1 3. cbn [fst snd]. pose proof (H _ (or_introl eq_refl)) as Hc. cbn [fst] in Hc. pose proof (HK c Hc) as Hkc. rewrite !oadd_at_ok by lia. cbn [bind].
  destruct (IH (upd a c (oadd (nthZ None a c) v)) (upd g (key c) (oadd (nthZ None g (key c)) v))) as (r & h & E1 & E2 & L1 & L2 & P1 & P2); rewrite ?zlen_upd; auto.
  - intros iv Hiv. apply H. right. exact Hiv.
  - intros d Hd. destruct (Z.eq_dec c d) as [<-|Hn]; [rewrite !nthZ_upd_eq by lia; rewrite HE by exact Hc; reflexivity|]. pose proof (HK d Hd). assert (key c <> key d) by (intros E; apply Hn, HI; assumption). rewrite !nthZ_upd_neq by lia. apply HE. exact Hd.
  - intros j Hj Hn. pose proof (Hn c Hc). rewrite nthZ_upd_neq by lia. apply HO; assumption.
  - rewrite zlen_upd in *. exists r, h. auto 8.
Qed.

Section Balance.
Context (dim : Z) (S : lsys) (L : sylists) (nf nhg : Z) (WF : wf_lsys dim S L nf nhg) (RG : regular dim S L) (B : bord) (WB : wf_bord S L B).
Lemma Hdim : dim = 2 \/ dim = 3.
Proof. exact (wfa_dim _ _ (wy_G _ _ _ _ _ WF)). Qed.
Lemma adds_range iv : In iv (all_adds dim S L B) -> 0 <= fst iv < nbcells S.
Proof.
  unfold all_adds. rewrite !in_app_iff, !in_flat_map. intros [(f & Hf & H)|[(f & Hf & H)|(f & Hf & H)]].
  - destruct (wy_inner _ _ _ _ _ WF f Hf) as (Hf' & _). destruct (face_left_cell dim S L nf nhg WF f Hf') as (_ & B1). destruct (face_right_cell dim S L nf nhg WF f Hf) as (_ & B2).
    unfold inner_adds in H. apply in_flat_map in H as (pn & _ & H). destruct (is_dir S (snd pn)); [|destruct H]. destruct H as [<-|[<-|[]]]; assumption.
  - destruct (wy_halo _ _ _ _ _ WF f Hf) as (Hf' & _). destruct (face_left_cell dim S L nf nhg WF f Hf') as (_ & B1).
    unfold halo_adds in H. apply in_flat_map in H as (pn & _ & H). destruct (is_dir S (snd pn)); [|destruct H]. destruct H as [<-|[]]; assumption.
  - destruct (wy_dir _ _ _ _ _ WF f Hf) as (Hf' & _). destruct (face_left_cell dim S L nf nhg WF f Hf') as (_ & B1).
    unfold dir_adds in H. apply in_app_iff in H as [H|[<-|[]]]; [|assumption]. apply in_flat_map in H as (pn & _ & H). destruct H as [<-|[]]; assumption.
Qed.

Context (x : Z -> R) (W : values) (HS : samples S x W) (WW : wf_values W (zlen (nd_centerc (sy_N S))) nf (zlen (nd_centerh (sy_N S))) nhg).
Context (wn : list (option R)) (Hwn : centertovertex dim (sy_N S) (sy_nv S) W = Ok wn).
Context (i : Z) (Hi : 0 <= i < nbcells S).
Definition some1 (qk : R * Z) : option R * Z := (Some (fst qk), snd qk).

Lemma dia_eq f : 0 <= f < zlen (fd_cellid (sy_G S)) -> dia S f = Proofs_interp4.dia dim (sy_G S) f.
Proof.
  intros Hf. pose proof (wy_D _ _ _ _ _ WF) as E. rewrite (face_info_ok dim (sy_G S) (wy_G _ _ _ _ _ WF)) in E. injection E as E. unfold dia. rewrite <- E.
  rewrite (nthZ_map _ 0) by (rewrite zlen_range by apply zlen_nonneg; exact Hf). rewrite nthZ_range by exact Hf. reflexivity.
Qed.
(** the coefficients of a face of the system *)
Lemma parts f wl wr vn g : In f (sl_inner L) \/ In f (sl_halo L) \/ In f (sl_dir L) -> 0 <= f < zlen (fd_cellid (sy_G S)) -> diamond_gradient dim (sy_G S) f wl wr vn g ->
  exists wq pl pr, weighted_nodes dim S f = map some1 wq /\ (if dim =? 2 then di_p1 (dia S f) else oopp (di_p3 (dia S f))) = Some pl /\ (if dim =? 2 then oopp (di_p1 (dia S f)) else di_p3 (dia S f)) = Some (- pl)%R /\
    di_p3 (dia S f) = Some pr /\ (forall qk, In qk wq -> In (snd qk) (nodes_of S f) /\ 0 <= snd qk < nbnodes S) /\
    vdot g (nthZ vzero (fd_normal (sy_G S)) f) = (pl * wl + pr * wr + rsum (map (fun qk => fst qk * vn (snd qk)) wq))%R.
Proof.
  intros HL Hf HG. destruct (rg_face _ _ _ RG f HL) as (HN & HD). pose proof (flux_ok dim (sy_G S) (wy_G _ _ _ _ _ WF) f wl wr vn g Hf HN HD HG) as E. rewrite <- dia_eq in E by exact Hf.
  pose proof (get2_nodes dim S L nf nhg WF f) as HK. fold (nodes_of S f) in E. unfold flux_of in E. unfold weighted_nodes. cbv zeta. set (d := dia S f) in *.
  destruct Hdim as [Ed|Ed].
  - replace (dim =? 2) with true in * by lia. destruct (di_p1 d) as [p1|], (di_p2 d) as [p2|], (di_p3 d) as [p3|], (di_p4 d) as [p4|]; try discriminate.
    exists [(p4, nthZ 0 (nodes_of S f) 0); (p2, nthZ 0 (nodes_of S f) 1)], p1, p3. split; [reflexivity|]. split; [reflexivity|]. split; [reflexivity|]. split; [reflexivity|]. split.
    + intros qk [<-|[<-|[]]]; cbn [snd]; [destruct (HK 0 Hf ltac:(lia)) as (_ & ? & ?) | destruct (HK 1 Hf ltac:(lia)) as (_ & ? & ?)]; split; assumption.
    + injection E as <-. cbn [map fst snd]. rewrite !rsum_cons. change (rsum []) with 0%R. ring.
  - replace (dim =? 2) with false in * by lia. destruct (di_p1 d) as [p1|], (di_p2 d) as [p2|], (di_p3 d) as [p3|]; try discriminate.
    exists [(p1, nthZ 0 (nodes_of S f) 0); (p2, nthZ 0 (nodes_of S f) 1); ((- p1)%R, nthZ 0 (nodes_of S f) 2); ((- p2)%R, nthZ 0 (nodes_of S f) 2)], (- p3)%R, p3. split; [reflexivity|]. split; [reflexivity|]. split; [rewrite Ropp_involutive; reflexivity|]. split; [reflexivity|]. split.
    + destruct (HK 0 Hf ltac:(lia)) as (_ & ? & ?), (HK 1 Hf ltac:(lia)) as (_ & ? & ?), (HK 2 Hf ltac:(lia)) as (_ & ? & ?). intros qk [<-|[<-|[<-|[<-|[]]]]]; cbn [snd]; split; assumption.
    + injection E as <-. cbn [map fst snd]. rewrite !rsum_cons. change (rsum []) with 0%R. ring.
Qed.
Notation cf l r := (/ vol S i * share l r i)%R.
Lemma nodes_row l r per f wq vn : row_cells S l r -> weighted_nodes dim S f = map some1 wq ->
  (forall qk, In qk wq -> 0 <= snd qk < nbnodes S /\ (per = false -> periodic_neighbours S (snd qk) = 0) /\ (is_dir S (snd qk) = false -> nthZ None wn (snd qk) = Some (vn (snd qk)))) ->
  row_sum (nodes_entries dim S l r per f) (global_cell S i) x = Some (rsum (map (fun qk => if is_dir S (snd qk) then 0 else cf l r * fst qk * vn (snd qk)) wq))%R.
Proof.
  intros HR E H. unfold nodes_entries. rewrite E, flat_map_map. unfold some1. cbn [fst snd]. apply flat_row. intros qk Hq. destruct (H qk Hq) as (H1 & H2 & H3). apply (node_row dim S L nf nhg WF RG x W HS WW wn Hwn); assumption.
Qed.
Lemma node_adds_sum l r q k : row_cells S l r -> addsum (node_adds S B l r (Some q) k) i = Some (- (cf l r * q * nthZ 0 (pb_node B) k))%R.
Proof.
  intros (Hl & Hr). unfold node_adds, share. cbv zeta. unfold rhs_left, rhs_right, vol. cbn [omul]. rewrite addsum_cons. rewrite odivo_some by (apply (rg_vol _ _ _ RG); exact Hl).
  destruct r as [r|].
  - rewrite addsum_cons, odivo_some by (apply (rg_vol _ _ _ RG); exact Hr). change (addsum [] i) with (Some 0%R).
    destruct (l =? i) eqn:E1, (r =? i) eqn:E2; cbn [oadd]; f_equal; try (apply Z.eqb_eq in E1; subst l); try (apply Z.eqb_eq in E2; subst r); unfold Rdiv; ring.
  - change (addsum [] i) with (Some 0%R). destruct (l =? i) eqn:E1; cbn [oadd]; f_equal; try (apply Z.eqb_eq in E1; subst l); unfold Rdiv; ring.
Qed.
Lemma nodes_adds_sum (cond : Z -> bool) l r wq : row_cells S l r ->
  addsum (flat_map (fun pn => if cond (snd pn) then node_adds S B l r (fst pn) (snd pn) else []) (map some1 wq)) i = Some (rsum (map (fun qk => if cond (snd qk) then - (cf l r * fst qk * nthZ 0%R (pb_node B) (snd qk)) else 0) wq))%R.
Proof.
  intros HR. rewrite flat_map_map. unfold some1. cbn [fst snd]. apply addsum_flat. intros qk _. destruct (cond (snd qk)); [apply node_adds_sum; exact HR | reflexivity].
Qed.
(** the difference of matrix and right-hand side: all nodes *)
Lemma nodes_diff (cond : Z -> bool) l r (wq : list (R * Z)) vn : (forall qk, In qk wq -> cond (snd qk) = true -> vn (snd qk) = nthZ 0%R (pb_node B) (snd qk)) ->
  (rsum (map (fun qk => if cond (snd qk) then 0 else cf l r * fst qk * vn (snd qk)) wq) - rsum (map (fun qk => if cond (snd qk) then - (cf l r * fst qk * nthZ 0%R (pb_node B) (snd qk)) else 0) wq) =
   cf l r * rsum (map (fun qk => fst qk * vn (snd qk)) wq))%R.
Proof.
  induction wq as [|qk wq IH]; intros H; cbn [map]; [cbn; ring|]. rewrite !rsum_cons, Rmult_plus_distr_l, <- IH by (intros; apply H; [right|]; assumption).
  destruct (cond (snd qk)) eqn:E; [rewrite <- (H qk (or_introl eq_refl) E)|]; ring.
Qed.
Lemma is_dir_spec k : (is_dir S k = true -> dirichlet_node S k) /\ (is_dir S k = false -> ~ dirichlet_node S k).
Proof. unfold is_dir, dirichlet_node. split; intros H; [apply mem_In; exact H | apply mem_not_In; exact H]. Qed.
Lemma end_entries l r pl pr j j' : row_cells S l r -> (0 <= i)%Z ->
  row_sum [(global_cell S l, j, odivo (Some pl) (vol S l)); (global_cell S l, j', odivo (Some pr) (vol S l))] (global_cell S i) x = Some ((if (l =? i)%Z then / vol S i else 0) * (pl * x j + pr * x j'))%R.
Proof.
  intros (Hl & _) _. rewrite !row_sum_cons. rewrite !(global_inj dim S L nf nhg WF RG) by assumption. unfold vol. rewrite !odivo_some by (apply (rg_vol _ _ _ RG); exact Hl). change (row_sum [] (global_cell S i) x) with (Some 0%R).
  destruct (l =? i) eqn:E; cbn [omul oadd]; f_equal; try (apply Z.eqb_eq in E; subst l); unfold Rdiv; ring.
Qed.

Lemma inner_balance f flux : In f (sl_inner L) -> diamond_flux dim S L B wn x f flux ->
  exists a r, row_sum (inner_entries dim S f) (global_cell S i) x = Some a /\ addsum (inner_adds dim S B f) i = Some r /\
    (a - r = / vol S i * ((if (left_cell S f =? i)%Z then flux else 0) - (if (right_cell S f =? i)%Z then flux else 0)))%R.
Proof.
  intros Hf (vn & g & wr & HV & HR & HG & ->). destruct (wy_inner _ _ _ _ _ WF f Hf) as (Hf' & _). destruct (face_left_cell dim S L nf nhg WF f Hf') as (_ & B1). destruct (face_right_cell dim S L nf nhg WF f Hf) as (_ & B2).
  destruct HR as (HR & _). specialize (HR Hf). subst wr. destruct (parts f _ _ vn g (or_introl Hf) Hf' HG) as (wq & pl & pr & Ew & E1 & E2 & E3 & Hq & ->).
  set (l := left_cell S f) in *. set (r := right_cell S f) in *. assert (HRC : row_cells S l (Some r)) by (split; assumption).
  unfold inner_entries. cbv zeta. fold l r. rewrite E1, E2, E3. cbn [oopp]. rewrite !row_sum_app.
  rewrite (nodes_row l (Some r) true f wq vn HRC Ew).
  2: { intros qk Hk. destruct (Hq qk Hk) as (I1 & I2). split; [exact I2|]. split; [discriminate|]. intros D. destruct (HV _ I1) as (_ & HV1). destruct (HV1 (or_introl Hf)) as (_ & HV2). apply HV2. apply is_dir_spec. exact D. }
  unfold inner_adds. rewrite Ew. fold l r. rewrite (nodes_adds_sum (is_dir S) l (Some r) wq HRC).
  rewrite !row_sum_cons. rewrite !(global_inj dim S L nf nhg WF RG) by assumption. unfold vol at 1 3 4 5. rewrite !odivo_some by (apply (rg_vol _ _ _ RG); assumption). change (row_sum [] (global_cell S i) x) with (Some 0%R).
  assert (ND := nodes_diff (is_dir S) l (Some r) wq vn). specialize (ND ltac:(intros qk Hk D; destruct (Hq qk Hk) as (I1 & I2); destruct (HV _ I1) as (_ & HV1); destruct (HV1 (or_introl Hf)) as (HV2 & _); apply HV2; apply is_dir_spec; exact D)).
  set (sa := rsum (map (fun qk => if is_dir S (snd qk) then 0%R else (cf l (Some r) * fst qk * vn (snd qk))%R) wq)) in *. set (sb := rsum (map (fun qk => if is_dir S (snd qk) then (- (cf l (Some r) * fst qk * nthZ 0 (pb_node B) (snd qk)))%R else 0%R) wq)) in *.
  set (sv := rsum (map (fun qk => (fst qk * vn (snd qk))%R) wq)) in *.
  unfold value_left. fold l r. set (xl := x (global_cell S l)). set (xr := x (global_cell S r)).
  exists (sa + cf l (Some r) * (pl * xl + pr * xr))%R, sb. split; [|split; [reflexivity|]].
  - unfold share, vol. destruct (l =? i) eqn:D1, (r =? i) eqn:D2; cbn [omul oadd]; f_equal; try (apply Z.eqb_eq in D1; rewrite D1); try (apply Z.eqb_eq in D2; rewrite D2); unfold Rdiv; ring.
  - replace (sa + cf l (Some r) * (pl * xl + pr * xr) - sb)%R with ((sa - sb) + cf l (Some r) * (pl * xl + pr * xr))%R by ring. rewrite ND. unfold share. destruct (l =? i), (r =? i); ring.
Qed.
Lemma halo_balance f flux : In f (sl_halo L) -> diamond_flux dim S L B wn x f flux ->
  exists a r, row_sum (halo_entries dim S f) (global_cell S i) x = Some a /\ addsum (halo_adds dim S B f) i = Some r /\
    (a - r = / vol S i * (if (left_cell S f =? i)%Z then flux else 0))%R.
Proof.
  intros Hf (vn & g & wr & HV & HR & HG & ->). destruct (wy_halo _ _ _ _ _ WF f Hf) as (Hf' & _). destruct (face_left_cell dim S L nf nhg WF f Hf') as (_ & B1).
  destruct HR as (_ & HR & _). specialize (HR Hf). subst wr. destruct (parts f _ _ vn g (or_intror (or_introl Hf)) Hf' HG) as (wq & pl & pr & Ew & E1 & E2 & E3 & Hq & ->).
  set (l := left_cell S f) in *. set (h := global_halo S (nthZ 0 (fd_halofid (sy_G S)) f)) in *. assert (HRC : row_cells S l None) by (split; [assumption | exact I]).
  assert (EN : row_sum (nodes_entries dim S l None false f) (global_cell S i) x = Some (rsum (map (fun qk => if is_dir S (snd qk) then 0 else cf l None * fst qk * vn (snd qk)) wq))%R).
  { apply nodes_row; [exact HRC | exact Ew|]. intros qk Hk. destruct (Hq qk Hk) as (I1 & I2). split; [exact I2|]. split.
    - intros _. destruct (Z.eq_dec (periodic_neighbours S (snd qk)) 0) as [E|E]; [exact E|]. destruct (rg_per _ _ _ RG _ I2 E) as (_ & _ & HX). destruct (HX f Hf I1).
    - intros D. destruct (HV _ I1) as (_ & HV1). destruct (HV1 (or_intror Hf)) as (_ & HV2). apply HV2. apply is_dir_spec. exact D. }
  assert (EH : row_sum (halo_entries dim S f) (global_cell S i) x = oadd (row_sum (nodes_entries dim S l None false f) (global_cell S i) x) (Some ((if (l =? i)%Z then / vol S i else 0) * (pl * x (global_cell S l) + pr * x h))%R)).
  { unfold halo_entries. cbv zeta. fold l h. destruct Hdim as [Ed|Ed]; [replace (dim =? 2) with true in * by lia | replace (dim =? 2) with false in * by lia]; rewrite E1, E3, row_sum_app, (end_entries l None pl pr _ _ HRC) by lia; [|reflexivity].
    destruct (row_sum (nodes_entries dim S l None false f) (global_cell S i) x); cbn [oadd]; [f_equal; ring | reflexivity]. }
  rewrite EH, EN. unfold halo_adds. rewrite Ew. fold l. rewrite (nodes_adds_sum (is_dir S) l None wq HRC).
  assert (ND := nodes_diff (is_dir S) l None wq vn). specialize (ND ltac:(intros qk Hk D; destruct (Hq qk Hk) as (I1 & I2); destruct (HV _ I1) as (_ & HV1); destruct (HV1 (or_intror Hf)) as (HV2 & _); apply HV2; apply is_dir_spec; exact D)).
  eexists. eexists. split; [reflexivity|]. split; [reflexivity|]. unfold value_left. fold l. unfold Rminus in *. 
  match goal with |- (?A + ?C + - ?D)%R = _ => replace (A + C + - D)%R with ((A + - D) + C)%R by ring end. rewrite ND. unfold share. destruct (l =? i); ring.
Qed.
Lemma dir_balance f flux : In f (sl_dir L) -> diamond_flux dim S L B wn x f flux ->
  exists a r, row_sum (dir_entries dim S f) (global_cell S i) x = Some a /\ addsum (dir_adds dim S B f) i = Some r /\
    (a - r = / vol S i * (if (left_cell S f =? i)%Z then flux else 0))%R.
Proof.
  intros Hf (vn & g & wr & HV & HR & HG & ->). destruct (wy_dir _ _ _ _ _ WF f Hf) as (Hf' & _). destruct (face_left_cell dim S L nf nhg WF f Hf') as (_ & B1).
  destruct HR as (_ & _ & HR). specialize (HR Hf). subst wr. destruct (parts f _ _ vn g (or_intror (or_intror Hf)) Hf' HG) as (wq & pl & pr & Ew & E1 & E2 & E3 & Hq & ->).
  set (l := left_cell S f) in *. assert (HRC : row_cells S l None) by (split; [assumption | exact I]).
  unfold dir_entries. cbv zeta. fold l. rewrite E1, E3. cbn [oopp]. rewrite (end_entries l None pl (- pr)%R _ _ HRC) by lia.
  unfold dir_adds. rewrite Ew, E3. fold l. rewrite addsum_app. rewrite (nodes_adds_sum (fun _ => true) l None wq HRC : addsum (flat_map (fun pn => node_adds S B l None (fst pn) (snd pn)) (map some1 wq)) i = _).
  rewrite addsum_cons. unfold rhs_face. cbn [omul]. rewrite (odivo_some _ (vol S l)) by exact (rg_vol _ _ _ RG l B1). cbn [omul]. change (addsum [] i) with (Some 0%R).
  pose proof (nodes_diff (fun _ => true) l None wq vn) as ND. specialize (ND ltac:(intros qk Hk _; destruct (Hq qk Hk) as (I1 & _); destruct (HV _ I1) as (HV1 & _); apply HV1; exact Hf)). cbv beta iota in ND |- *.
  assert (EZ : rsum (map (fun _ : R * Z => 0%R) wq) = 0%R) by (clear; induction wq; cbn [map]; [reflexivity | rewrite rsum_cons, IHwq; ring]). rewrite EZ in ND.
  set (sb := rsum (map (fun qk : R * Z => (- (cf l None * fst qk * nthZ 0 (pb_node B) (snd qk)))%R) wq)) in *. set (sv := rsum (map (fun qk => (fst qk * vn (snd qk))%R) wq)) in *.
  unfold value_left. fold l. set (xl := x (global_cell S l)). set (V := nthZ 0%R (pb_face B) f).
  assert (ES : sb = (- (cf l None * sv))%R) by lra. rewrite ES. unfold share, vol. destruct (l =? i) eqn:D; cbn [oadd]; eexists; eexists; (split; [reflexivity|]); (split; [reflexivity|]).
  - apply Z.eqb_eq in D. rewrite D. unfold Rdiv. ring.
  - ring.
Qed.
(** sums over the faces *)
Lemma sum_balance (e : Z -> list entry) (ad : Z -> list (Z * option R)) (sh : Z -> R) lst :
  (forall f, In f lst -> exists a r, row_sum (e f) (global_cell S i) x = Some a /\ addsum (ad f) i = Some r /\ (a - r = / vol S i * sh f)%R) ->
  exists a r, row_sum (flat_map e lst) (global_cell S i) x = Some a /\ addsum (flat_map ad lst) i = Some r /\ (a - r = / vol S i * rsum (map sh lst))%R.
Proof.
  induction lst as [|f lst IH]; intros H; cbn [flat_map map]; [exists 0%R, 0%R; repeat split; cbn; ring|].
  destruct (H f (or_introl eq_refl)) as (a & r & A1 & A2 & A3). destruct IH as (a' & r' & C1 & C2 & C3); [intros; apply H; right; assumption|].
  rewrite row_sum_app, addsum_app, A1, A2, C1, C2. cbn [oadd]. exists (a + a')%R, (r + r')%R. split; [reflexivity|]. split; [reflexivity|]. rewrite rsum_cons, Rmult_plus_distr_l, <- A3, <- C3. ring.
Qed.
Lemma all_balance flux : (forall f, In f (sl_inner L) \/ In f (sl_halo L) \/ In f (sl_dir L) -> diamond_flux dim S L B wn x f (flux f)) ->
  exists a r, row_sum (all_entries dim S L) (global_cell S i) x = Some a /\ addsum (all_adds dim S L B) i = Some r /\ (a - r = / vol S i * leaving S L flux i)%R.
Proof.
  intros H. unfold all_entries, all_adds.
  destruct (sum_balance (inner_entries dim S) (inner_adds dim S B) (fun f => (if (left_cell S f =? i)%Z then flux f else 0) - (if (right_cell S f =? i)%Z then flux f else 0))%R (sl_inner L)) as (a1 & r1 & A1 & A2 & A3); [intros f Hf; apply inner_balance; auto|].
  destruct (sum_balance (halo_entries dim S) (halo_adds dim S B) (fun f => if (left_cell S f =? i)%Z then flux f else 0%R) (sl_halo L)) as (a2 & r2 & B1 & B2 & B3); [intros f Hf; apply halo_balance; auto|].
  destruct (sum_balance (dir_entries dim S) (dir_adds dim S B) (fun f => if (left_cell S f =? i)%Z then flux f else 0%R) (sl_dir L)) as (a3 & r3 & C1 & C2 & C3); [intros f Hf; apply dir_balance; auto|].
  rewrite !row_sum_app, !addsum_app, A1, A2, B1, B2, C1, C2. cbn [oadd]. exists (a1 + (a2 + a3))%R, (r1 + (r2 + r3))%R. split; [reflexivity|]. split; [reflexivity|]. unfold leaving. rewrite !Rmult_plus_distr_l, <- A3, <- B3, <- C3. ring.
Qed.
End Balance.
