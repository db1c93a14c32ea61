(** * Proofs_linsys5: rows of the matrix, the right-hand side, and the balance (C39, C40). *)
From Verif Require Import Py PyLemmas Model_part Model_conn Spec_conn Model_geom Spec_geom Model_halo Model_interp Spec_interp Proofs_conn1 Proofs_interp1 Proofs_interp2 Proofs_interp4 Model_bc Model_linsys Spec_linsys Proofs_linsys1 Proofs_linsys2 Proofs_linsys3 Proofs_linsys4 Proofs_fvm1 Proofs_fvm2.
From Coq Require Import ZifyBool Permutation Lra.
Open Scope Z_scope.

(** ** sums of options *)
Lemma row_sum_cons i j v l r x : row_sum ((i, j, v) :: l) r x = if i =? r then oadd (omul v (Some (x j))) (row_sum l r x) else row_sum l r x.
Proof. reflexivity. Qed.
Lemma row_sum_app a b r x : row_sum (a ++ b) r x = oadd (row_sum a r x) (row_sum b r x).
Proof.
  induction a as [|((i, j), v) a IH]; cbn [app].
  - change (row_sum [] r x) with (Some 0%R). destruct (row_sum b r x); cbn [oadd]; [f_equal; ring | reflexivity].
  - rewrite !row_sum_cons, IH. destruct (i =? r); [|reflexivity]. destruct v as [v|], (row_sum a r x), (row_sum b r x); cbn; try reflexivity. f_equal. ring.
Qed.
Lemma row_sum_zeros n r x : row_sum (repeat e0 n) r x = Some 0%R.
Proof. induction n as [|n IH]; [reflexivity|]. cbn [repeat]. unfold e0 at 1. rewrite row_sum_cons, IH. destruct (0 =? r); [cbn; f_equal; ring | reflexivity]. Qed.

Section Rows.
Context (dim : Z) (S : lsys) (L : sylists) (nf nhg : Z) (WF : wf_lsys dim S L nf nhg) (RG : regular dim S L).
Lemma global_inj a b : 0 <= a < nbcells S -> 0 <= b < nbcells S -> (global_cell S a =? global_cell S b) = (a =? b).
Proof.
  intros Ha Hb. destruct (wy_len _ _ _ _ _ WF) as (_ & E & _). destruct (a =? b) eqn:Eab; [apply Z.eqb_eq in Eab; subst; apply Z.eqb_refl|]. apply Z.eqb_neq in Eab. apply Z.eqb_neq. intros H. apply Eab.
  pose proof (rg_l2g _ _ _ RG) as ND. rewrite (NoDup_nth _ 0) in ND. unfold global_cell, nthZ, zlen in *. assert (Z.to_nat a = Z.to_nat b) by (apply ND; [lia | lia | exact H]). lia.
Qed.
(** the share of cell i in the contributions of a face with cells l and r *)
Definition share (l : Z) (r : option Z) (i : Z) : R := ((if (l =? i)%Z then 1 else 0) - match r with Some r => if (r =? i)%Z then 1 else 0 | None => 0 end)%R.
Lemma odivo_some a v : v <> 0%R -> odivo (Some a) v = Some (a / v)%R.
Proof. intros H. cbn. apply odiv_some. exact H. Qed.
Lemma pair_row l r q a col i x : row_cells S l r -> 0 <= i < nbcells S ->
  row_sum (pair_entries S l r (Some q) (Some a) col) (global_cell S i) x = Some (/ vol S i * share l r i * q * (a * x col))%R.
Proof.
  intros (Hl & Hr) Hi. unfold pair_entries, share. rewrite row_sum_cons, global_inj by assumption. unfold vol. rewrite odivo_some by (apply (rg_vol _ _ _ RG); exact Hl).
  destruct r as [r|].
  - rewrite row_sum_cons, global_inj by assumption. cbn [oopp]. rewrite odivo_some by (apply (rg_vol _ _ _ RG); exact Hr). cbn [row_sum fold_right]. 
    destruct (l =? i) eqn:E1, (r =? i) eqn:E2; cbn [omul oadd]; f_equal; try (apply Z.eqb_eq in E1; subst l); try (apply Z.eqb_eq in E2; subst r); unfold Rdiv; ring.
  - cbn [row_sum fold_right]. destruct (l =? i) eqn:E1; cbn [omul oadd]; f_equal; try (apply Z.eqb_eq in E1; subst l); unfold Rdiv; ring.
Qed.
Lemma flat_row {X} (e : X -> list entry) (v : X -> R) lst r x : (forall y, In y lst -> row_sum (e y) r x = Some (v y)) -> row_sum (flat_map e lst) r x = Some (rsum (map v lst)).
Proof.
  induction lst as [|y lst IH]; intros H; cbn [flat_map map]; [reflexivity|]. rewrite row_sum_app, H by (left; reflexivity). rewrite IH by (intros; apply H; right; assumption). cbn [oadd]. rewrite rsum_cons. reflexivity.
Qed.

(** ** the value of a node *)
Lemma nvar_at k : 0 <= k < nbnodes S -> nv_at S k = nvar dim (disps dim (sy_N S) k).
Proof.
  intros Hk. pose proof (wy_nv _ _ _ _ _ WF) as E. rewrite (variables_ok dim (sy_N S) nf nhg (wy_N _ _ _ _ _ WF)) in E. injection E as E. unfold nv_at. rewrite <- E.
  rewrite (nthZ_map _ 0) by (rewrite zlen_range by apply zlen_nonneg; exact Hk). rewrite nthZ_range by exact Hk. reflexivity.
Qed.
Lemma alpha_none nv d d' : alpha nv d = None -> alpha nv d' = None.
Proof. unfold alpha. destruct (nv_lambda nv); [|reflexivity]. unfold odiv. destruct (Req_EM_T _ _); [reflexivity | discriminate]. Qed.
Lemma fold_weigh_none nv (dp : pt * source -> pt) (v : pt * source -> R) lst : fold_left (fun s ps => weigh nv s (dp ps) (v ps)) lst None = None.
Proof. induction lst as [|p lst IH]; cbn [fold_left]; [reflexivity | exact IH]. Qed.
Lemma fold_weigh nv (dp : pt * source -> pt) (v : pt * source -> R) lst a w : lst <> [] -> fold_left (fun s ps => weigh nv s (dp ps) (v ps)) lst (Some a) = Some w ->
  exists wt, (forall d, alpha nv d = Some (wt d)) /\ w = (a + rsum (map (fun ps => wt (dp ps) * v ps) lst))%R.
Proof.
  intros Hne H. assert (HS : forall d, alpha nv d <> None).
  { intros d Hd. destruct lst as [|p lst]; [congruence|]. cbn [fold_left] in H. unfold weigh at 2 in H. rewrite (alpha_none nv d (dp p) Hd) in H. cbn [oadd] in H. rewrite fold_weigh_none in H. discriminate. }
  exists (fun d => match alpha nv d with Some x => x | None => 0%R end). split; [intros d; destruct (alpha nv d) eqn:E; [reflexivity | destruct (HS d E)]|].
  clear Hne. revert a H. induction lst as [|p lst IH]; intros a H; cbn [fold_left map] in H |- *; [injection H as <-; cbn; ring|].
  rewrite rsum_cons. unfold weigh at 2 in H. destruct (alpha nv (dp p)) as [q|] eqn:E; [|destruct (HS _ E)]. cbn [oadd] in H. rewrite (IH _ H). ring.
Qed.
Lemma rsum_map_ext2 {A B} (f : A -> R) (g : B -> R) a b : map f a = map g b -> rsum (map f a) = rsum (map g b).
Proof. intros ->. reflexivity. Qed.
Lemma counted_zero row : row_count row = 0 -> counted row = [].
Proof. unfold counted. intros ->. reflexivity. Qed.

Context (x : Z -> R) (W : values) (HS : samples S x W) (WW : wf_values W (zlen (nd_centerc (sy_N S))) nf (zlen (nd_centerh (sy_N S))) nhg).
(** the sum of a node: the points of the stencil of the interpolation carry the values x *)
Lemma around_sum per k (wt : pt -> R) : 0 <= k < nbnodes S -> (per = false -> periodic_neighbours S k = 0) ->
  rsum (map (fun pc => wt (fst pc) * x (snd pc))%R (around dim S per k)) = rsum (map (fun ps => wt (fst ps) * value_at W (snd ps))%R (stencil dim (sy_N S) k)).
Proof.
  intros Hk Hper. destruct HS as (S1 & S2 & S3 & S4). pose proof (wy_N _ _ _ _ _ WF) as WN. destruct (wy_rows _ _ _ _ _ WF k Hk) as (R1 & R2 & R3). destruct (wn_cell _ _ _ _ WN k Hk) as (C1 & C2 & C3).
  set (cs := rsum (map (fun pc => wt (fst pc) * x (snd pc))%R (cells_at S k))). set (gs := rsum (map (fun pc => wt (fst pc) * x (snd pc))%R (ghosts_at S k))).
  set (hg := rsum (map (fun pc => wt (fst pc) * x (snd pc))%R (haloghosts_at S k))). set (hs := rsum (map (fun pc => wt (fst pc) * x (snd pc))%R (halos_at S k))).
  set (ps := rsum (map (fun pc => wt (fst pc) * x (snd pc))%R (periodics_at S k))).
  transitivity (cs + gs + ps + hg + hs)%R.
  { assert (EP : rsum (map (fun pc => wt (fst pc) * x (snd pc))%R (if per then periodics_at S k else [])) = ps).
    { destruct per; [reflexivity|]. unfold ps, periodics_at. rewrite counted_zero by (apply Hper; reflexivity). reflexivity. }
    unfold around. destruct (dim =? 2); rewrite !map_app, !rsum_app, EP; fold cs gs hg hs; ring. }
  unfold stencil. rewrite !map_app, !rsum_app. set (old := nthZ 0 (nd_old (sy_N S)) k).
  assert (E1 : rsum (map (fun p => wt (fst p) * value_at W (snd p))%R (map (fun c => (nthZ vzero (nd_centerc (sy_N S)) c, Scell c)) (counted (nthZ [] (nd_cellid (sy_N S)) k)))) = cs).
  { unfold cs, cells_at. rewrite !map_map. apply rsum_map_ext2, map_ext_in. intros c Hc. cbn [fst snd value_at]. rewrite S1 by (apply C3; exact Hc). reflexivity. }
  assert (E2 : rsum (map (fun p => wt (fst p) * value_at W (snd p))%R (map (fun e => (g_pt e, Sghost (g_last e))) (real_ghosts (nthZ [] (nd_ghost (sy_N S)) k)))) = gs).
  { unfold gs, ghosts_at. rewrite !map_map. apply rsum_map_ext2, map_ext_in. intros e He. cbn [fst snd value_at]. rewrite (S3 k e) by assumption. reflexivity. }
  assert (E3 : rsum (map (fun p => wt (fst p) * value_at W (snd p))%R (if is_periodic dim old then map (fun c => (image old (nthZ vzero (nd_centerc (sy_N S)) c) (nthZ vzero (nd_shift (sy_N S)) c), Scell c)) (counted (nthZ [] (nd_periodic (sy_N S)) k)) else [])) = ps).
  { unfold ps, periodics_at. destruct (Z.eq_dec (periodic_neighbours S k) 0) as [E|E].
    - rewrite counted_zero by exact E. destruct (is_periodic dim old); reflexivity.
    - destruct (rg_per _ _ _ RG k Hk E) as (-> & Ep & _). fold old in Ep. rewrite Ep. rewrite !map_map. apply rsum_map_ext2, map_ext_in. intros c Hc. cbn [fst snd value_at]. rewrite S1 by (apply R3; exact Hc). reflexivity. }
  assert (E4 : rsum (map (fun p => wt (fst p) * value_at W (snd p))%R (if nthZ 0 (nd_name (sy_N S)) k =? 10 then map (fun e => (g_pt e, Shaloghost (g_last e))) (real_ghosts (nthZ [] (nd_haloghost (sy_N S)) k)) ++ map (fun h => (nthZ vzero (nd_centerh (sy_N S)) h, Shalo h)) (counted (nthZ [] (nd_haloid (sy_N S)) k)) else [])) = (hg + hs)%R).
  { unfold hg, hs, haloghosts_at, halos_at. destruct (_ =? 10) eqn:E.
    - rewrite map_app, rsum_app. f_equal; rewrite !map_map; apply rsum_map_ext2, map_ext_in; [intros e He; cbn [fst snd value_at]; rewrite (S4 k e) by assumption | intros h Hh; cbn [fst snd value_at]; rewrite S2 by (apply R2; exact Hh)]; reflexivity.
    - apply Z.eqb_neq in E. destruct (rg_halo _ _ _ RG k Hk E) as (H1 & H2). rewrite H2, counted_zero by exact H1. cbn. ring. }
  rewrite E1, E2, E3, E4. ring.
Qed.
Lemma stencil_ne k : 0 <= k < nbnodes S -> stencil dim (sy_N S) k <> [].
Proof.
  intros Hk E. pose proof (wy_N _ _ _ _ _ WF) as WN. destruct (wy_rows _ _ _ _ _ WF k Hk) as (R1 & _). destruct (wn_cell _ _ _ _ WN k Hk) as (C1 & C2 & C3).
  unfold stencil in E. apply app_eq_nil in E as (E & _). apply map_eq_nil in E. unfold counted in E. destruct (nthZ [] (nd_cellid (sy_N S)) k) as [|y l]; [cbv in C1; discriminate|]. destruct (Z.to_nat _) eqn:En; [lia | discriminate].
Qed.
Context (wn : list (option R)) (Hwn : centertovertex dim (sy_N S) (sy_nv S) W = Ok wn).
Lemma node_row l r per q k v i : row_cells S l r -> 0 <= i < nbcells S -> 0 <= k < nbnodes S -> (per = false -> periodic_neighbours S k = 0) ->
  (is_dir S k = false -> nthZ None wn k = Some v) ->
  row_sum (node_entries dim S l r per (Some q) k) (global_cell S i) x = Some (if is_dir S k then 0 else / vol S i * share l r i * q * v)%R.
Proof.
  intros HR Hi Hk Hper Hv. unfold node_entries. destruct (is_dir S k); [reflexivity|]. specialize (Hv eq_refl).
  rewrite (centertovertex_ok dim (sy_N S) nf nhg (wy_N _ _ _ _ _ WF) W WW _ (wy_nv _ _ _ _ _ WF)) in Hwn. injection Hwn as E. rewrite <- E in Hv.
  rewrite (nthZ_map _ 0) in Hv by (rewrite zlen_range by apply zlen_nonneg; exact Hk). rewrite nthZ_range in Hv by exact Hk. unfold nval in Hv. rewrite <- nvar_at in Hv by exact Hk.
  apply (fold_weigh _ (fun ps => disp dim (fst ps) (nthZ vzero (nd_vertex (sy_N S)) k)) (fun ps => value_at W (snd ps))) in Hv; [|apply stencil_ne; exact Hk]. destruct Hv as (wt & Hwt & ->).
  rewrite (flat_row _ (fun pc => / vol S i * share l r i * q * (wt (disp dim (fst pc) (nthZ vzero (nd_vertex (sy_N S)) k)) * x (snd pc)))%R).
  - rewrite rsum_map_scal. f_equal. f_equal. rewrite Rplus_0_l. apply (around_sum per k (fun p => wt (disp dim p (nthZ vzero (nd_vertex (sy_N S)) k))) Hk Hper).
  - intros pc _. unfold weight. rewrite Hwt. apply pair_row; assumption.
Qed.
End Rows.
