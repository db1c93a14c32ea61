(** * Proofs_interp3: the least-squares cell gradient (C25). *)
From Verif Require Import Py PyLemmas Model_part Model_conn Spec_conn Model_geom Spec_geom Model_interp Spec_interp Proofs_interp1 Proofs_interp2.
From Coq Require Import Permutation Lra Psatz ZifyBool.
Open Scope Z_scope.

Lemma foldM_nodes {A} (T : list (list Z)) i n (H : Z -> A -> res A) q : 0 <= i < zlen T -> 0 <= n <= zlen (nthZ [] T i) ->
  foldM (fun q k => do nod <- get2 T i k; H nod q) (range n) q = foldM (fun q nod => H nod q) (firstn (Z.to_nat n) (nthZ [] T i)) q.
Proof.
  intros Hi Hn. rewrite <- (firstn_nthZ 0) by exact Hn. rewrite (foldM_map (fun q nod => H nod q)). apply foldM_ext. intros s k Hk. apply in_range in Hk.
  unfold get2. rewrite (get_nthZ []) by exact Hi. cbn [bind]. rewrite (get_nthZ 0) by lia. reflexivity.
Qed.
Lemma foldM_flat {A B} (f : A -> B -> A) (P : Z -> list B) (H : Z -> A -> res A) l q :
  (forall k q, In k l -> H k q = Ok (fold_left f (P k) q)) -> foldM (fun q k => H k q) l q = Ok (fold_left f (flat_map P l) q).
Proof.
  revert q. induction l as [|k l IH]; intros q HH; cbn [foldM flat_map]; [reflexivity|]. rewrite HH by (left; reflexivity). cbn [bind]. rewrite IH by (intros; apply HH; right; assumption).
  rewrite fold_left_app. reflexivity.
Qed.

Lemma foldM_range_ok_inv {S} (I : Z -> S -> Prop) (f : S -> Z -> res S) n s0 s1 : 0 <= n -> foldM f (range n) s0 = Ok s1 -> I 0 s0 ->
  (forall i s s', 0 <= i < n -> I i s -> f s i = Ok s' -> I (i + 1) s') -> I n s1.
Proof.
  intros Hn E H0 Hs. assert (G : forall m s, (Z.of_nat m <= n) -> foldM f (range (Z.of_nat m)) s0 = Ok s -> I (Z.of_nat m) s).
  { induction m as [|m IH]; intros s Hm Es; [cbn in Es; injection Es as <-; exact H0|]. replace (Z.of_nat (Datatypes.S m)) with (Z.of_nat m + 1) in * by lia.
    rewrite range_succ, foldM_app in Es by lia. apply bind_ok in Es as (s' & E1 & E2). cbn in E2. apply bind_ok in E2 as (s2 & E2 & E3). injection E3 as <-.
    apply (Hs (Z.of_nat m) s'); [lia | apply IH; [lia | exact E1] | exact E2]. }
  specialize (G (Z.to_nat n) s1). rewrite Z2Nat.id in G by lia. apply G; [lia | exact E].
Qed.

Section Cell.
Context (dim : Z) (C : celldata) (nbnodes nf nhg : Z) (WF : wf_celldata dim C nbnodes nf nhg).
Context (W : values) (WW : wf_values W (zlen (cd_centerc C)) nf (zlen (cd_centerh C)) nhg).

Lemma node_ghosts_ok {A} (upd : A -> pt -> R -> A) k q : 0 <= k < nbnodes ->
  node_ghosts C W (2 * dim) k upd q = Ok (fold_left (fun q ps => upd q (fst ps) (value_at W (snd ps)))
    ((if nthZ 0 (cd_old C) k <=? 2 * dim then map (fun e => (g_pt e, Sghost (g_last e))) (real_ghosts (nthZ [] (cd_ghost C) k)) else []) ++
     map (fun e => (g_pt e, Shaloghost (g_last e))) (real_ghosts (nthZ [] (cd_haloghost C) k))) q).
Proof.
  intros Hk. destruct (wc_len _ _ _ _ _ WF) as (L1 & L2 & L3 & L4 & L5 & L6 & L7 & L8 & L9). destruct WW as (W1 & W2 & W3 & W4). destruct (wc_nodes _ _ _ _ _ WF k Hk) as (_ & (_ & _ & G) & (_ & _ & HG)).
  unfold node_ghosts. rewrite (get_nthZ 0) by lia. cbn [bind]. rewrite fold_left_app, fold_left_map.
  match goal with |- (do q <- ?X; _) = Ok (fold_left _ _ ?r) => assert (E : X = Ok r) end.
  { destruct (_ <=? _); [|reflexivity]. rewrite (get_nthZ []) by lia. cbn [bind]. rewrite fold_left_map. apply ghost_loop_ok. intros a e He. rewrite (get_nthZ 0%R) by (rewrite W2; apply G; exact He). reflexivity. }
  rewrite E. cbn [bind]. rewrite (get_nthZ []) by lia. cbn [bind]. apply ghost_loop_ok. intros a e He. rewrite (get_nthZ 0%R) by (rewrite W4; apply HG; exact He). reflexivity.
Qed.
Lemma node_periodic_ok upd k q : 0 <= k < nbnodes ->
  node_periodic C W k upd q = Ok (fold_left (fun q ps => upd q (fst ps) (value_at W (snd ps)))
    (let l := nthZ 0 (cd_old C) k in if is_x l || is_y l then
       map (fun c => (image l (nthZ vzero (cd_centerc C) c) (nthZ vzero (cd_shift C) c), Scell c)) (counted (nthZ [] (cd_periodic C) k)) else []) q).
Proof.
  intros Hk. destruct (wc_len _ _ _ _ _ WF) as (L1 & L2 & L3 & L4 & L5 & L6 & L7 & L8 & L9). destruct WW as (W1 & W2 & W3 & W4). destruct (wc_nodes _ _ _ _ _ WF k Hk) as (RO & _).
  unfold node_periodic. rewrite (get_nthZ 0) by lia. cbn [bind]. cbv zeta. set (l := nthZ 0 (cd_old C) k). fold (is_x l) (is_y l).
  assert (Ex : is_x l = true -> is_y l = false /\ is_z l = false) by (unfold is_x, is_y, is_z; lia).
  assert (Ey : is_y l = true -> is_x l = false /\ is_z l = false) by (unfold is_x, is_y, is_z; lia).
  assert (IM : forall f, (forall p s, f p s = image l p s) -> forall q, count_loop (nthZ [] (cd_periodic C) k) (fun q c => do p <- get (cd_centerc C) c; do s <- get (cd_shift C) c; do w <- get (w_c W) c; Ok (upd q (f p s) w)) q =
    Ok (fold_left (fun q ps => upd q (fst ps) (value_at W (snd ps))) (map (fun c => (image l (nthZ vzero (cd_centerc C) c) (nthZ vzero (cd_shift C) c), Scell c)) (counted (nthZ [] (cd_periodic C) k))) q)).
  { intros f Hf q'. rewrite fold_left_map. apply (count_loop_ok _ (zlen (cd_centerc C))); [exact RO|]. intros a c Hc. rewrite (get_nthZ vzero) by lia. cbn [bind]. rewrite (get_nthZ vzero) by lia. cbn [bind]. rewrite (get_nthZ 0%R) by lia. cbn [bind]. rewrite Hf. reflexivity. }
  destruct (is_x l) eqn:E1.
  - destruct (Ex eq_refl) as (E2 & E3). rewrite E2. cbn [orb]. rewrite (get_nthZ []) by lia. cbn [bind]. rewrite (IM (fun p s => P3 (px p + px s) (py p) (pz p))); [reflexivity|].
    intros p s. unfold image. rewrite E1, E2, E3. f_equal; ring.
  - cbn [bind orb]. destruct (is_y l) eqn:E2; [|reflexivity]. destruct (Ey eq_refl) as (_ & E3). rewrite (get_nthZ []) by lia. cbn [bind]. apply (IM (fun p s => P3 (px p) (py p + py s) (pz p))).
    intros p s. unfold image. rewrite E1, E2, E3. f_equal; ring.
Qed.

Definition qfold (x : pt) (wi : R) (l : list (pt * source)) (q : lsq) : lsq :=
  fold_left (fun q ps => q_add q (disp dim (fst ps) x) (value_at W (snd ps) - wi)) l q.
Let X i := nthZ vzero (cd_centerc C) i.
Let Wi i := nthZ 0%R (w_c W) i.

Lemma cell_gradient2_ok i : dim = 2 -> 0 <= i < zlen (cd_centerc C) -> cell_gradient2 C W i = Ok (grad2 (qfold (X i) (Wi i) (cell_stencil dim C i) q0)).
Proof.
  intros Ed Hi. destruct (wc_len _ _ _ _ _ WF) as (L1 & L2 & L3 & L4 & L5 & L6 & L7 & L8 & L9). pose proof WW as (W1 & W2 & W3 & W4). destruct (wc_rows _ _ _ _ _ WF i Hi) as (R1 & R2 & R3 & R4 & R5).
  unfold cell_gradient2. rewrite (get_nthZ vzero) by lia. cbn [bind]. rewrite (get_nthZ 0%R) by lia. cbn [bind]. cbv zeta. fold (X i) (Wi i).
  set (f := fun q (ps : pt * source) => q_add q (disp dim (fst ps) (X i)) (value_at W (snd ps) - Wi i)).
  rewrite (get_nthZ []) by lia. cbn [bind].
  rewrite (count_loop_ok _ _ _ (fun q c => f q (nthZ vzero (cd_centerc C) c, Scell c)) q0 R1) by (intros a c Hc; rewrite (get_nthZ vzero) by lia; cbn [bind]; rewrite (get_nthZ 0%R) by lia; subst f; rewrite Ed; reflexivity). cbn [bind].
  rewrite (foldM_nodes (cd_nodes C) i 3 (fun nod q => node_periodic C W nod (fun q p w => q_add q (disp 2 p (X i)) (w - Wi i)) q)) by lia.
  replace 3 with (dim + 1) by lia.
  set (upd := fun q p w => q_add q (disp 2 p (X i)) (w - Wi i)).
  assert (Eu : forall l q, fold_left (fun q ps => upd q (fst ps) (value_at W (snd ps))) l q = fold_left f l q) by (intros l q; apply fold_left_ext; intros; unfold upd, f; rewrite Ed; reflexivity).
  rewrite (foldM_flat f (fun k => let l := nthZ 0 (cd_old C) k in if is_x l || is_y l then map (fun c => (image l (nthZ vzero (cd_centerc C) c) (nthZ vzero (cd_shift C) c), Scell c)) (counted (nthZ [] (cd_periodic C) k)) else []))
    by (intros k q Hk; rewrite node_periodic_ok by (apply R5; exact Hk); rewrite Eu; reflexivity). cbn [bind].
  rewrite (get_nthZ []) by lia. cbn [bind].
  rewrite (count_loop_ok _ (zlen (cd_centerh C)) _ (fun q h => f q (nthZ vzero (cd_centerh C) h, Shalo h))); [|exact R2 | intros a c Hc; rewrite (get_nthZ vzero) by lia; cbn [bind]; rewrite (get_nthZ 0%R) by lia; subst f; rewrite Ed; reflexivity]. cbn [bind].
  rewrite (foldM_nodes (cd_nodes C) i (dim + 1) (fun nod q => node_ghosts C W 4 nod upd q)) by lia.
  rewrite (foldM_flat f (fun k => (if nthZ 0 (cd_old C) k <=? 2 * dim then map (fun e => (g_pt e, Sghost (g_last e))) (real_ghosts (nthZ [] (cd_ghost C) k)) else []) ++ map (fun e => (g_pt e, Shaloghost (g_last e))) (real_ghosts (nthZ [] (cd_haloghost C) k))))
    by (intros k q Hk; replace 4 with (2 * dim) by lia; rewrite node_ghosts_ok by (apply R5; exact Hk); rewrite Eu; reflexivity). cbn [bind].
  f_equal. f_equal. unfold qfold. fold f. unfold cell_stencil. cbv zeta. replace (dim =? 2) with true by lia. rewrite !fold_left_app, !fold_left_map. reflexivity.
Qed.

Lemma fold_upd3 x wi l s : dim = 3 -> fst (fold_left (fun s ps => upd3 x wi s (fst ps) (value_at W (snd ps))) l s) = qfold x wi l (fst s).
Proof. intros Ed. revert s. induction l as [|ps l IH]; intros s; [reflexivity|]. cbn [fold_left]. rewrite IH. unfold qfold, upd3. cbn [fold_left fst]. rewrite Ed. reflexivity. Qed.
Lemma count_zero {A} row (f : A -> Z -> res A) a : 0 < zlen row -> row_count row = 0 -> count_loop row f a = Ok a.
Proof. intros H E. unfold count_loop. rewrite (get_last 0) by exact H. cbn [bind]. unfold row_count in E. rewrite E. reflexivity. Qed.
Lemma cell_gradient3_ok i last : dim = 3 -> 0 <= i < zlen (cd_centerc C) -> row_count (nthZ [] (cd_periodicnid C) i) = 0 ->
  exists last', cell_gradient3 C W last i = Ok (grad3 (qfold (X i) (Wi i) (cell_stencil dim C i) q0), last').
Proof.
  intros Ed Hi HP. destruct (wc_len _ _ _ _ _ WF) as (L1 & L2 & L3 & L4 & L5 & L6 & L7 & L8 & L9). pose proof WW as (W1 & W2 & W3 & W4). destruct (wc_rows _ _ _ _ _ WF i Hi) as (R1 & R2 & R3 & R4 & R5).
  unfold cell_gradient3. rewrite (get_nthZ vzero) by lia. cbn [bind]. rewrite (get_nthZ 0%R) by lia. cbn [bind]. fold (X i) (Wi i).
  set (f := fun s (ps : pt * source) => upd3 (X i) (Wi i) s (fst ps) (value_at W (snd ps))).
  rewrite (get_nthZ []) by lia. cbn [bind].
  rewrite (count_loop_ok _ _ _ (fun q c => f q (nthZ vzero (cd_centerc C) c, Scell c)) _ R1) by (intros a c Hc; rewrite (get_nthZ vzero) by lia; cbn [bind]; rewrite (get_nthZ 0%R) by lia; reflexivity). cbn [bind].
  rewrite (get_nthZ []) by lia. cbn [bind]. destruct R3 as (R3 & _). rewrite count_zero by assumption. cbn [bind].
  rewrite (get_nthZ []) by lia. cbn [bind].
  rewrite (count_loop_ok _ (zlen (cd_centerh C)) _ (fun q h => f q (nthZ vzero (cd_centerh C) h, Shalo h))); [|exact R2 | intros a c Hc; rewrite (get_nthZ vzero) by lia; cbn [bind]; rewrite (get_nthZ 0%R) by lia; reflexivity]. cbn [bind].
  rewrite (foldM_nodes (cd_nodes C) i 4 (fun nod q => node_ghosts C W 6 nod (upd3 (X i) (Wi i)) q)) by lia. replace 4 with (dim + 1) by lia.
  rewrite (foldM_flat f (fun k => (if nthZ 0 (cd_old C) k <=? 2 * dim then map (fun e => (g_pt e, Sghost (g_last e))) (real_ghosts (nthZ [] (cd_ghost C) k)) else []) ++ map (fun e => (g_pt e, Shaloghost (g_last e))) (real_ghosts (nthZ [] (cd_haloghost C) k))))
    by (intros k q Hk; replace 6 with (2 * dim) by lia; rewrite node_ghosts_ok by (apply R5; exact Hk); reflexivity). cbn [bind].
  eexists. f_equal. f_equal. f_equal. change q0 with (fst (q0, last)). rewrite <- fold_upd3 by exact Ed. fold f. unfold cell_stencil. cbv zeta. replace (dim =? 2) with false by lia. rewrite !fold_left_app, !fold_left_map. reflexivity.
Qed.

Lemma cell_gradient_at gs i : cell_gradient dim C W = Ok gs -> 0 <= i < zlen (cd_centerc C) -> (dim = 3 -> row_count (nthZ [] (cd_periodicnid C) i) = 0) ->
  zlen gs = zlen (cd_centerc C) /\ nthZ None gs i = (if dim =? 2 then grad2 else grad3) (qfold (X i) (Wi i) (cell_stencil dim C i) q0).
Proof.
  intros E Hi HP. pose proof WW as (W1 & _). unfold cell_gradient in E. rewrite W1 in E. destruct (wc_dim _ _ _ _ _ WF) as [Ed|Ed].
  - replace (dim =? 2) with true in * by lia. rewrite (mapM_ok _ (fun i => grad2 (qfold (X i) (Wi i) (cell_stencil dim C i) q0))) in E by (intros k Hk; apply in_range in Hk; apply cell_gradient2_ok; assumption).
    injection E as <-. rewrite zlen_map, zlen_range by lia. split; [reflexivity|]. rewrite (nthZ_map _ 0) by (rewrite zlen_range; lia). rewrite nthZ_range by lia. reflexivity.
  - replace (dim =? 2) with false in * by lia. apply bind_ok in E as (s & E & E'). injection E' as <-.
    pose (I := fun n (s : list (option pt) * option pt) => zlen (fst s) = n /\ forall k, 0 <= k < n -> row_count (nthZ [] (cd_periodicnid C) k) = 0 -> nthZ None (fst s) k = grad3 (qfold (X k) (Wi k) (cell_stencil dim C k) q0)).
    assert (G : I (zlen (cd_centerc C)) s).
    { apply (foldM_range_ok_inv I _ _ _ _ (zlen_nonneg _) E); [split; [reflexivity | intros; lia]|].
      intros k r r' Hk (I1 & I2) Er. apply bind_ok in Er as (t & Et & Er). injection Er as <-. split; [cbn [fst]; rewrite zlen_app, I1; reflexivity|].
      intros j Hj HPj. cbn [fst]. destruct (Z.eq_dec j k) as [-> |Hne].
      - assert (EL : nthZ None (fst r ++ [fst t]) k = fst t) by (rewrite <- I1; apply nthZ_app_last). rewrite EL. destruct (cell_gradient3_ok k (snd r) Ed Hk HPj) as (l' & El). rewrite El in Et. injection Et as <-. reflexivity.
      - rewrite nthZ_app_l by lia. apply I2; [lia | exact HPj]. }
    destruct G as (G1 & G2). split; [exact G1|]. apply G2; [exact Hi | apply HP; exact Ed].
Qed.
Lemma cell_gradient_total : (dim = 3 -> forall i, 0 <= i < zlen (cd_centerc C) -> row_count (nthZ [] (cd_periodicnid C) i) = 0) ->
  exists gs, cell_gradient dim C W = Ok gs /\ zlen gs = zlen (cd_centerc C).
Proof.
  intros HP. pose proof WW as (W1 & _). unfold cell_gradient. rewrite W1. destruct (wc_dim _ _ _ _ _ WF) as [Ed|Ed].
  - replace (dim =? 2) with true by lia. eexists. split; [apply (mapM_ok _ (fun i => grad2 (qfold (X i) (Wi i) (cell_stencil dim C i) q0))); intros k Hk; apply in_range in Hk; apply cell_gradient2_ok; assumption|].
    rewrite zlen_map, zlen_range by apply zlen_nonneg. reflexivity.
  - replace (dim =? 2) with false by lia. destruct (foldM_range_inv (fun n (s : list (option pt) * option pt) => zlen (fst s) = n) (fun s i => do r <- cell_gradient3 C W (snd s) i; Ok (fst s ++ [fst r], snd r)) (zlen (cd_centerc C)) ([], None)) as (s & E & HL); [apply zlen_nonneg | reflexivity | |].
    + intros i s Hi HL. destruct (cell_gradient3_ok i (snd s) Ed Hi (HP Ed i Hi)) as (l & E). rewrite E. cbn [bind]. eexists. split; [reflexivity|]. cbn [fst]. rewrite zlen_app, HL. reflexivity.
    + rewrite E. cbn [bind]. eauto.
Qed.
End Cell.

Open Scope R_scope.
Lemma qfold_m dim W x wi l : q_m (qfold dim W x wi l q0) = momS (map (fun ps => disp dim (fst ps) x) l).
Proof.
  induction l as [|ps l IH] using rev_ind; [reflexivity|]. unfold qfold in *. rewrite fold_left_app, map_app. cbn [fold_left map]. cbn [q_add q_m]. rewrite IH. symmetry. apply momS_snoc.
Qed.
Lemma qfold_j dim W x g wi l : (forall ps, In ps l -> value_at W (snd ps) - wi = vdot g (disp dim (fst ps) x)) ->
  normal_eqs (q_m (qfold dim W x wi l q0)) g (q_j (qfold dim W x wi l q0)).
Proof.
  induction l as [|ps l IH] using rev_ind; intros H; [unfold qfold, normal_eqs; cbn; repeat split; ring|]. unfold qfold in *. rewrite fold_left_app. cbn [fold_left].
  destruct (IH (fun q Hq => H q (in_or_app _ _ _ (or_introl Hq)))) as (N1 & N2 & N3). set (q := fold_left _ l q0) in *. rewrite H by (apply in_or_app; right; left; reflexivity).
  unfold normal_eqs, q_add. cbn [q_m q_j m_add m_xx m_yy m_zz m_xy m_xz m_yz padd pscal px py pz]. rewrite <- N1, <- N2, <- N3. unfold vdot. repeat split; ring.
Qed.
Lemma grad_exact dim W x g wi l : (dim = 2 \/ dim = 3)%Z -> gradient dim g -> spans_from dim x (map fst l) ->
  (forall ps, In ps l -> value_at W (snd ps) - wi = vdot g (disp dim (fst ps) x)) ->
  (if (dim =? 2)%Z then grad2 else grad3) (qfold dim W x wi l q0) = Some g.
Proof.
  intros Hd Hg HS HV. pose proof (spans_from_lindep dim x _ Hd HS) as HI. rewrite map_map in HI.
  pose proof (qfold_j dim W x g wi l HV) as HN. pose proof (qfold_m dim W x wi l) as HM. set (q := qfold dim W x wi l q0) in *. destruct q as [m j]. cbn [q_m q_j] in *.
  set (ds := map (fun ps => disp dim (fst ps) x) l) in *.
  destruct Hd as [-> | ->]; cbn [Z.eqb Pos.eqb].
  - assert (Hz : forall d, In d ds -> pz d = 0) by (intros d Hin; apply in_map_iff in Hin as (ps & <- & _); reflexivity).
    pose proof (D2_nonzero _ Hz HI) as HD. rewrite <- HM in HD. specialize (Hg eq_refl). destruct HN as (N1 & N2 & _). rewrite Hg in N1, N2. unfold grad2. cbn [q_m q_j]. rewrite <- N1, <- N2. cbv zeta. rewrite !odiv_some by exact HD.
    f_equal. destruct g as [g1 g2 g3]. cbn [px py pz] in *. subst g3. f_equal; field; exact HD.
  - pose proof (D3_nonzero _ HI) as HD. rewrite <- HM in HD. unfold D3 in HD. destruct HN as (N1 & N2 & N3). unfold grad3. cbn [q_m q_j]. rewrite <- N1, <- N2, <- N3. cbv zeta.
    rewrite !odiv_some by lra. f_equal. destruct g as [g1 g2 g3]. cbn [px py pz] in *. f_equal; field; lra.
Qed.
