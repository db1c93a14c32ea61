(** * Proofs_interp2: the node interpolation (C24). *)
From Verif Require Import Py PyLemmas Model_part Model_conn Spec_conn Model_geom Spec_geom Model_interp Spec_interp Proofs_interp1.
From Coq Require Import Permutation Lra Psatz ZifyBool.
Open Scope Z_scope.

Lemma axis_image dim old : (if is_periodic dim old then exists f, axis_shift dim old = Some f /\ forall p s, f p s = image old p s else axis_shift dim old = None).
Proof.
  unfold is_periodic, axis_shift. fold (is_x old) (is_y old) (is_z old).
  assert (Ey : is_x old = true -> is_y old = false /\ is_z old = false) by (unfold is_x, is_y, is_z; lia).
  assert (Ez : is_y old = true -> is_x old = false /\ is_z old = false) by (unfold is_x, is_y, is_z; lia).
  assert (Ew : is_z old = true -> is_x old = false /\ is_y old = false) by (unfold is_x, is_y, is_z; lia).
  destruct (is_x old) eqn:E1; cbn [orb].
  - destruct (Ey eq_refl) as (E2 & E3). eexists. split; [reflexivity|]. intros p s. unfold image. rewrite E1, E2, E3. f_equal; ring.
  - destruct (is_y old) eqn:E2; cbn [orb].
    + destruct (Ez eq_refl) as (_ & E3). eexists. split; [reflexivity|]. intros p s. unfold image. rewrite E1, E2, E3. f_equal; ring.
    + destruct ((dim =? 3) && is_z old) eqn:E3; [|reflexivity]. apply andb_true_iff in E3 as (_ & E3).
      eexists. split; [reflexivity|]. intros p s. unfold image. rewrite E1, E2, E3. f_equal; ring.
Qed.

Section Node.
Context (dim : Z) (N : nodedata) (nf nhg : Z) (WF : wf_nodedata dim N nf nhg).
Let V i := nthZ vzero (nd_vertex N) i.

Definition nvar (l : list pt) : nodevar :=
  let m := momS l in {| nv_R := P3 (m_x m) (m_y m) (m_z m); nv_number := m_n m; nv_lambda := if dim =? 2 then lambda2 m else lambda3 m |}.
Definition disps (i : Z) : list pt := map (fun ps => disp dim (fst ps) (V i)) (stencil dim N i).

Lemma fold_left_ext {A B} (f g : A -> B -> A) l a : (forall a b, In b l -> f a b = g a b) -> fold_left f l a = fold_left g l a.
Proof. revert a. induction l as [|b l IH]; intros a H; cbn; [reflexivity|]. rewrite H by (left; reflexivity). apply IH. intros; apply H; right; assumption. Qed.

Lemma node_variables_ok i : 0 <= i < zlen (nd_vertex N) -> node_variables dim N i = Ok (nvar (disps i)).
Proof.
  intros Hi. destruct (wn_len _ _ _ _ WF) as (L1 & L2 & L3 & L4 & L5 & L6 & L7 & L8). unfold node_variables.
  rewrite (get_nthZ vzero) by lia. cbn [bind]. fold (V i). rewrite (get_nthZ 0 (nd_old N)) by lia. cbn [bind]. rewrite (get_nthZ 0 (nd_name N)) by lia. cbn [bind]. rewrite (get_nthZ [] (nd_cellid N)) by lia. cbn [bind].
  set (f := fun m (ps : pt * source) => m_add m (disp dim (fst ps) (V i))).
  rewrite (count_loop_ok _ _ _ (fun m c => f m (nthZ vzero (nd_centerc N) c, Scell c)) m0 (wn_cell _ _ _ _ WF i Hi)) by (intros a c Hc; rewrite (get_nthZ vzero) by lia; reflexivity). cbn [bind].
  rewrite (get_nthZ [] (nd_ghost N)) by lia. cbn [bind]. destruct (wn_ghost _ _ _ _ WF i Hi) as (G1 & G2 & G3). rewrite (get_nthZ gpad) by lia. cbn [bind].
  set (r1 := fold_left _ _ m0).
  assert (Eg : (if g_cell (nthZ gpad (nthZ [] (nd_ghost N) i) 0) =? -1 then Ok r1 else ghost_loop (nthZ [] (nd_ghost N) i) (fun m e => Ok (m_add m (disp dim (g_pt e) (V i)))) r1) =
    Ok (fold_left (fun m e => f m (g_pt e, Sghost (g_last e))) (real_ghosts (nthZ [] (nd_ghost N) i)) r1)).
  { destruct (_ =? -1) eqn:E; [rewrite G2 by lia; reflexivity | apply ghost_loop_ok; intros; reflexivity]. }
  rewrite Eg. cbn [bind]. set (r2 := fold_left _ _ r1).
  set (old := nthZ 0 (nd_old N) i) in *. set (per := if is_periodic dim old then map (fun c => (image old (nthZ vzero (nd_centerc N) c) (nthZ vzero (nd_shift N) c), Scell c)) (counted (nthZ [] (nd_periodic N) i)) else []).
  match goal with |- (do m <- ?X; _) = _ => assert (Ep : X = Ok (fold_left f per r2)) end.
  { pose proof (axis_image dim old) as A. subst per. destruct (is_periodic dim old) eqn:E.
    - destruct A as (g & -> & Hg). rewrite (get_nthZ [] (nd_periodic N)) by lia. cbn [bind]. rewrite fold_left_map.
      apply (count_loop_ok _ (zlen (nd_centerc N))); [apply (wn_per _ _ _ _ WF); assumption|]. intros a c Hc. rewrite (get_nthZ vzero) by lia. cbn [bind]. rewrite (get_nthZ vzero) by lia. cbn [bind]. rewrite Hg. reflexivity.
    - rewrite A. reflexivity. }
  rewrite Ep. cbn [bind]. set (r3 := fold_left f per r2).
  set (hl := if nthZ 0 (nd_name N) i =? 10 then map (fun e => (g_pt e, Shaloghost (g_last e))) (real_ghosts (nthZ [] (nd_haloghost N) i)) ++ map (fun h => (nthZ vzero (nd_centerh N) h, Shalo h)) (counted (nthZ [] (nd_haloid N) i)) else []).
  match goal with |- (do m <- ?X; _) = _ => assert (Eh : X = Ok (fold_left f hl r3)) end.
  { subst hl. destruct (_ =? 10) eqn:E; [|reflexivity]. destruct (wn_halo _ _ _ _ WF i Hi ltac:(lia)) as (H1 & H2 & H3 & H4).
    rewrite (get_nthZ [] (nd_haloghost N)) by lia. cbn [bind]. rewrite (get_nthZ [] (nd_haloid N)) by lia. cbn [bind].
    assert (C1 : forall r, count_loop (nthZ [] (nd_haloid N) i) (fun m c => do p <- get (nd_centerh N) c; Ok (m_add m (disp dim p (V i)))) r = Ok (fold_left f (map (fun h => (nthZ vzero (nd_centerh N) h, Shalo h)) (counted (nthZ [] (nd_haloid N) i))) r)).
    { intros r. rewrite fold_left_map. apply (count_loop_ok _ (zlen (nd_centerh N))); [exact H1|]. intros a c Hc. rewrite (get_nthZ vzero) by lia. reflexivity. }
    assert (C2 : forall r, ghost_loop (nthZ [] (nd_haloghost N) i) (fun m e => Ok (m_add m (disp dim (g_pt e) (V i)))) r = Ok (fold_left f (map (fun e => (g_pt e, Shaloghost (g_last e))) (real_ghosts (nthZ [] (nd_haloghost N) i))) r)).
    { intros r. rewrite fold_left_map. apply ghost_loop_ok. intros; reflexivity. }
    destruct (dim =? 2); [rewrite C2; cbn [bind]; rewrite C1, fold_left_app; reflexivity|].
    rewrite C1. cbn [bind]. rewrite C2. rewrite <- fold_left_app. f_equal. apply fold_left_perm; [intros; apply m_add_comm | apply Permutation_app_comm]. }
  rewrite Eh. cbn [bind].
  assert (EM : fold_left f hl r3 = momS (disps i)).
  { rewrite <- moms_momS. unfold moms, disps. rewrite fold_left_map. fold f. unfold stencil. fold old per hl. rewrite !fold_left_app, !fold_left_map. reflexivity. }
  rewrite EM. reflexivity.
Qed.

Lemma variables_ok : variables dim N = Ok (map (fun i => nvar (disps i)) (range (zlen (nd_vertex N)))).
Proof. unfold variables. apply mapM_ok. intros i Hi. apply in_range in Hi. apply node_variables_ok. exact Hi. Qed.

Context (W : values) (WW : wf_values W (zlen (nd_centerc N)) nf (zlen (nd_centerh N)) nhg).
Definition nval (i : Z) : option R :=
  fold_left (fun s ps => weigh (nvar (disps i)) s (disp dim (fst ps) (V i)) (value_at W (snd ps))) (stencil dim N i) (Some 0%R).
Lemma node_value_ok i nvs : 0 <= i < zlen (nd_vertex N) -> variables dim N = Ok nvs -> node_value dim N nvs W i = Ok (nval i).
Proof.
  intros Hi Env. rewrite variables_ok in Env. injection Env as <-. destruct (wn_len _ _ _ _ WF) as (L1 & L2 & L3 & L4 & L5 & L6 & L7 & L8). destruct WW as (W1 & W2 & W3 & W4). unfold node_value.
  rewrite (get_nthZ vzero) by lia. cbn [bind]. fold (V i). rewrite (get_nthZ 0 (nd_old N)) by lia. cbn [bind]. rewrite (get_nthZ 0 (nd_name N)) by lia. cbn [bind].
  rewrite (get_map_range (fun i => nvar (disps i))) by lia. cbn [bind]. rewrite (get_nthZ [] (nd_cellid N)) by lia. cbn [bind].
  unfold nval. set (nv := nvar (disps i)).
  set (f := fun s (ps : pt * source) => weigh nv s (disp dim (fst ps) (V i)) (value_at W (snd ps))).
  rewrite (count_loop_ok _ _ _ (fun m c => f m (nthZ vzero (nd_centerc N) c, Scell c)) (Some 0%R) (wn_cell _ _ _ _ WF i Hi))
    by (intros a c Hc; rewrite (get_nthZ vzero) by lia; cbn [bind]; rewrite (get_nthZ 0%R) by lia; reflexivity). cbn [bind].
  rewrite (get_nthZ [] (nd_ghost N)) by lia. cbn [bind]. destruct (wn_ghost _ _ _ _ WF i Hi) as (G1 & G2 & G3). rewrite (get_nthZ gpad) by lia. cbn [bind].
  set (r1 := fold_left _ _ (Some 0%R)).
  match goal with |- (do m <- ?X; _) = _ => assert (Eg : X = Ok (fold_left (fun m e => f m (g_pt e, Sghost (g_last e))) (real_ghosts (nthZ [] (nd_ghost N) i)) r1)) end.
  { destruct (_ =? -1) eqn:E; [rewrite G2 by lia; reflexivity | apply ghost_loop_ok]. intros a e He. rewrite (get_nthZ 0%R) by (rewrite W2; apply G3; exact He). reflexivity. }
  rewrite Eg. cbn [bind]. set (r2 := fold_left _ _ r1).
  set (old := nthZ 0 (nd_old N) i) in *. set (per := if is_periodic dim old then map (fun c => (image old (nthZ vzero (nd_centerc N) c) (nthZ vzero (nd_shift N) c), Scell c)) (counted (nthZ [] (nd_periodic N) i)) else []).
  match goal with |- (do m <- ?X; _) = _ => assert (Ep : X = Ok (fold_left f per r2)) end.
  { pose proof (axis_image dim old) as A. subst per. destruct (is_periodic dim old) eqn:E.
    - destruct A as (g & -> & Hg). rewrite (get_nthZ [] (nd_periodic N)) by lia. cbn [bind]. rewrite fold_left_map.
      apply (count_loop_ok _ (zlen (nd_centerc N))); [apply (wn_per _ _ _ _ WF); assumption|]. intros a c Hc. rewrite (get_nthZ vzero) by lia. cbn [bind]. rewrite (get_nthZ vzero) by lia. cbn [bind]. rewrite (get_nthZ 0%R) by lia. cbn [bind]. rewrite Hg. reflexivity.
    - rewrite A. reflexivity. }
  rewrite Ep. cbn [bind]. set (r3 := fold_left f per r2).
  set (hl := if nthZ 0 (nd_name N) i =? 10 then map (fun e => (g_pt e, Shaloghost (g_last e))) (real_ghosts (nthZ [] (nd_haloghost N) i)) ++ map (fun h => (nthZ vzero (nd_centerh N) h, Shalo h)) (counted (nthZ [] (nd_haloid N) i)) else []).
  transitivity (Ok (fold_left f hl r3)).
  { subst hl. destruct (_ =? 10) eqn:E; [|reflexivity]. destruct (wn_halo _ _ _ _ WF i Hi ltac:(lia)) as (H1 & H2 & H3 & H4).
    rewrite (get_nthZ [] (nd_haloghost N)) by lia. cbn [bind]. rewrite (get_nthZ [] (nd_haloid N)) by lia. cbn [bind].
    rewrite (ghost_loop_ok _ _ (fun m e => f m (g_pt e, Shaloghost (g_last e)))) by (intros a e He; rewrite (get_nthZ 0%R) by (rewrite W4; apply H4; exact He); reflexivity). cbn [bind].
    rewrite (count_loop_ok _ (zlen (nd_centerh N)) _ (fun m h => f m (nthZ vzero (nd_centerh N) h, Shalo h))); [|exact H1 | intros a c Hc; rewrite (get_nthZ vzero) by lia; cbn [bind]; rewrite (get_nthZ 0%R) by lia; reflexivity].
    rewrite fold_left_app, !fold_left_map. reflexivity. }
  f_equal. unfold stencil. fold old per hl. rewrite !fold_left_app, !fold_left_map. reflexivity.
Qed.
Lemma centertovertex_ok nvs : variables dim N = Ok nvs -> centertovertex dim N nvs W = Ok (map nval (range (zlen (nd_vertex N)))).
Proof. intros E. unfold centertovertex. apply mapM_ok. intros i Hi. apply in_range in Hi. apply node_value_ok; assumption. Qed.
End Node.

Open Scope R_scope.
(** the weights of node i *)
Definition weights (dim : Z) (N : nodedata) (i : Z) : list R :=
  map (fun ps => match alpha (nvar dim (disps dim N i)) (disp dim (fst ps) (nthZ vzero (nd_vertex N) i)) with Some a => a | None => 0 end) (stencil dim N i).
Lemma weights_ok dim N i : (dim = 2 \/ dim = 3)%Z -> spans dim (map fst (stencil dim N i)) ->
  let v := nthZ vzero (nd_vertex N) i in
  (forall W, nval dim N W i = Some (rsum (map (fun ap => fst ap * value_at W (snd (snd ap))) (combine (weights dim N i) (stencil dim N i))))) /\
  (forall c g, gradient dim g -> rsum (map (fun ap => fst ap * affine c g (fst (snd ap))) (combine (weights dim N i) (stencil dim N i))) = affine c g v).
Proof.
  intros Hd HS. cbv zeta. set (v := nthZ vzero (nd_vertex N) i).
  pose proof (spans_indep dim v _ Hd HS) as HI. rewrite map_map in HI. change (indep dim (disps dim N i)) in HI.
  assert (Hz : dim = 2%Z -> forall d, In d (disps dim N i) -> pz d = 0).
  { intros -> d Hin. apply in_map_iff in Hin as (ps & <- & _). reflexivity. }
  destruct (lambda_ok dim (disps dim N i) Hd Hz (indep_lin _ _ HI)) as (x & El & Hx & Hn).
  pose proof (denom_nonzero dim _ x Hx HI Hn) as HD. set (m := momS (disps dim N i)) in *. set (den := IZR (m_n m) + px x * m_x m + py x * m_y m + pz x * m_z m) in *.
  assert (EA : forall d, alpha (nvar dim (disps dim N i)) d = Some (lin 1 x d / den)).
  { intros d. unfold alpha, nvar. fold m. cbn [nv_lambda nv_number nv_R px py pz]. rewrite El. fold den. rewrite odiv_some by exact HD. f_equal. unfold lin, Rdiv. ring. }
  split.
  - intros W. unfold nval. fold v.
    assert (G : forall l s0, fold_left (fun s ps => weigh (nvar dim (disps dim N i)) s (disp dim (fst ps) v) (value_at W (snd ps))) l (Some s0) =
      Some (s0 + rsum (map (fun ap => fst ap * value_at W (snd (snd ap))) (combine (map (fun ps => match alpha (nvar dim (disps dim N i)) (disp dim (fst ps) v) with Some a => a | None => 0 end) l) l)))).
    { induction l as [|ps l IH]; intros s0; [cbn; f_equal; ring|]. cbn [fold_left map combine]. unfold weigh at 2. rewrite EA. cbn [oadd]. rewrite IH. f_equal. cbn [map rsum fold_right fst snd]. fold (rsum (map (fun ap => fst ap * value_at W (snd (snd ap))) (combine (map (fun ps => match alpha (nvar dim (disps dim N i)) (disp dim (fst ps) v) with Some a => a | None => 0 end) l) l))). ring. }
    rewrite G. f_equal. rewrite Rplus_0_l. reflexivity.
  - intros c g Hg. pose proof (weights_affine (disps dim N i) x (affine c g v) g Hn) as EW. fold m den in EW. cbv zeta in EW. fold den in EW.
    assert (E2 : rsum (map (fun ap => fst ap * affine c g (fst (snd ap))) (combine (weights dim N i) (stencil dim N i))) = / den * Sm (fun d => lin 1 x d * lin (affine c g v) g d) (disps dim N i)).
    { unfold weights. fold v. unfold disps at 2. fold v. clear HS. induction (stencil dim N i) as [|ps l IH]; [cbn; ring|].
      cbn [map combine Sm]. unfold rsum in *. cbn [fold_right fst snd]. rewrite IH. rewrite EA.
      assert (EL : affine c g (fst ps) = lin (affine c g v) g (disp dim (fst ps) v)).
      { rewrite lin_disp by assumption. unfold affine, vdot. ring. }
      rewrite EL. unfold Rdiv. ring. }
    rewrite E2, EW. field. exact HD.
Qed.

(** converse: when all points of the stencil lie on a line / in a plane the value is not a finite number *)
Lemma normal_of_kernel a b l : (forall d, In d l -> lin a b d = 0) -> let m := momS l in
  a * IZR (m_n m) + (px b * m_x m + py b * m_y m + pz b * m_z m) = 0 /\ normal_eqs m b (P3 (- (a * m_x m)) (- (a * m_y m)) (- (a * m_z m))).
Proof.
  intros H. cbv zeta. unfold normal_eqs. cbn [px py pz].
  assert (S : forall f, Sm (fun d => f d * lin a b d) l = 0).
  { intros f. rewrite (Sm_ext _ (fun d => 0 * 0)); [clear; induction l; cbn; lra|]. intros d Hd. rewrite H by exact Hd. ring. }
  assert (G : forall f, Sm (fun d => f d * lin a b d) l = a * Sm f l + px b * Sm (fun d => f d * px d) l + py b * Sm (fun d => f d * py d) l + pz b * Sm (fun d => f d * pz d) l).
  { intros f. clear. induction l as [|d l IH]; cbn [Sm]; [ring|]. rewrite IH. unfold lin. ring. }
  assert (O : forall k, Sm (fun _ => k) l = k * IZR (zlen l)) by (intros k; clear; induction l; [cbn; ring | cbn [Sm]; rewrite IHl, zlen_cons, plus_IZR; ring]).
  assert (C : forall f g, Sm (fun d => f d * g d) l = Sm (fun d => g d * f d) l) by (intros; apply Sm_ext; intros; ring).
  pose proof (S (fun _ => 1)) as S0. pose proof (S px) as S1. pose proof (S py) as S2. pose proof (S pz) as S3.
  rewrite G in S0, S1, S2, S3. rewrite O in S0. rewrite (Sm_ext (fun d => 1 * px d) px), (Sm_ext (fun d => 1 * py d) py), (Sm_ext (fun d => 1 * pz d) pz) in S0 by (intros; ring).
  rewrite (C py px), ?(C pz px), ?(C pz py) in *. cbn [momS m_xx m_yy m_zz m_xy m_xz m_yz m_x m_y m_z m_n].
  rewrite ?(C py px), ?(C pz px), ?(C pz py). repeat split; lra.
Qed.

Lemma normal_unique dim m x y r : (dim = 2 \/ dim = 3)%Z -> (dim = 2%Z -> pz x = 0 /\ pz y = 0) ->
  (if (dim =? 2)%Z then m_xx m * m_yy m - m_xy m * m_xy m <> 0 else D3 m <> 0) -> normal_eqs m x r -> normal_eqs m y r -> x = y.
Proof.
  intros [-> | ->] Hz HD (X1 & X2 & X3) (Y1 & Y2 & Y3); cbn [Z.eqb Pos.eqb] in HD; destruct x as [x1 x2 x3], y as [y1 y2 y3], r as [r1 r2 r3]; cbn [px py pz] in *.
  - destruct (Hz eq_refl) as (-> & ->). destruct (solve2 (x1 - y1) (x2 - y2) (m_xx m) (m_xy m) (m_xy m) (m_yy m)) as (E1 & E2); [lra | lra | lra |]. f_equal; lra.
  - assert (E : P3 (x1 - y1) (x2 - y2) (x3 - y3) = vzero).
    { apply (solve3 _ (P3 (m_xx m) (m_xy m) (m_xz m)) (P3 (m_xy m) (m_yy m) (m_yz m)) (P3 (m_xz m) (m_yz m) (m_zz m))); unfold det, vdot, D3 in *; cbn [px py pz]; lra. }
    injection E as E1 E2 E3. f_equal; lra.
Qed.
Lemma lambda_inv dim l x : (dim = 2 \/ dim = 3)%Z -> (dim = 2%Z -> forall d, In d l -> pz d = 0) -> (if (dim =? 2)%Z then lambda2 (momS l) else lambda3 (momS l)) = Some x ->
  (if (dim =? 2)%Z then m_xx (momS l) * m_yy (momS l) - m_xy (momS l) * m_xy (momS l) <> 0 else D3 (momS l) <> 0) /\ (dim = 2%Z -> pz x = 0) /\
  normal_eqs (momS l) x (P3 (- m_x (momS l)) (- m_y (momS l)) (- m_z (momS l))).
Proof.
  intros [-> | ->] Hz; cbn [Z.eqb Pos.eqb]; intros E.
  - unfold lambda2 in E. cbv zeta in E. assert (HD : m_xx (momS l) * m_yy (momS l) - m_xy (momS l) * m_xy (momS l) <> 0).
    { intros E0. unfold odiv in E. rewrite E0 in E. destruct (Req_EM_T 0 0); [discriminate | lra]. }
    rewrite !odiv_some in E by exact HD. apply (f_equal (fun o => match o with Some y => y | None => vzero end)) in E. cbn beta iota in E. subst x.
    destruct (planar_moms l (Hz eq_refl)) as (E1 & E2 & E3 & E4). split; [exact HD|]. split; [reflexivity|]. unfold normal_eqs. cbn [px py pz]. rewrite E1, E2, E3, E4. repeat split; field; exact HD.
  - unfold lambda3 in E. cbv zeta in E. fold (D3 (momS l)) in E. assert (HD : D3 (momS l) <> 0).
    { intros E0. unfold odiv in E. rewrite E0 in E. destruct (Req_EM_T 0 0); [discriminate | lra]. }
    rewrite !odiv_some in E by exact HD. apply (f_equal (fun o => match o with Some y => y | None => vzero end)) in E. cbn beta iota in E. subst x.
    split; [exact HD|]. split; [intros; lia|]. unfold normal_eqs. cbn [px py pz]. unfold D3 in *. repeat split; field; exact HD.
Qed.
Lemma degenerate_none dim N W i a b : (dim = 2 \/ dim = 3)%Z -> stencil dim N i <> [] -> gradient dim b -> b <> vzero ->
  (forall p s, In (p, s) (stencil dim N i) -> affine a b p = 0) -> nval dim N W i = None.
Proof.
  intros Hd HN Hb Hb0 HA. set (v := nthZ vzero (nd_vertex N) i). set (a' := affine a b v).
  assert (HL : forall d, In d (disps dim N i) -> lin a' b d = 0).
  { intros d Hin. apply in_map_iff in Hin as ([p s] & <- & Hin). cbn [fst]. fold v. rewrite lin_disp by assumption. specialize (HA p s Hin). unfold a', affine, vdot in *. lra. }
  assert (Hz : dim = 2%Z -> forall d, In d (disps dim N i) -> pz d = 0) by (intros -> d Hin; apply in_map_iff in Hin as (ps & <- & _); reflexivity).
  assert (EA : forall d, alpha (nvar dim (disps dim N i)) d = None).
  { intros d. unfold alpha, nvar. cbn [nv_lambda nv_number nv_R px py pz]. destruct (if (dim =? 2)%Z then lambda2 _ else lambda3 _) as [x|] eqn:El; [|reflexivity].
    destruct (lambda_inv dim _ x Hd Hz El) as (HD & Hx & Hn). destruct (normal_of_kernel a' b _ HL) as (K0 & KN). cbv zeta in *. set (m := momS (disps dim N i)) in *.
    destruct (Req_dec a' 0) as [E0|E0].
    - exfalso. apply Hb0. apply (normal_unique dim m b vzero (P3 0 0 0) Hd); [intros E; split; [apply Hb; exact E | reflexivity] | exact HD | rewrite E0 in KN |].
      + destruct KN as (K1 & K2 & K3). unfold normal_eqs. cbn [px py pz] in *. repeat split; lra.
      + unfold normal_eqs. cbn. repeat split; ring.
    - assert (E : x = vscal (/ a') b).
      { apply (normal_unique dim m x (vscal (/ a') b) (P3 (- m_x m) (- m_y m) (- m_z m)) Hd); [intros E; split; [apply Hx; exact E | cbn; rewrite (Hb E); ring] | exact HD | exact Hn |].
        destruct KN as (K1 & K2 & K3). unfold normal_eqs, vscal. cbn [px py pz] in *. repeat split; apply (Rmult_eq_reg_l a'); try exact E0.
        - transitivity (m_xx m * px b + m_xy m * py b + m_xz m * pz b); [field; exact E0 | lra].
        - transitivity (m_xy m * px b + m_yy m * py b + m_yz m * pz b); [field; exact E0 | lra].
        - transitivity (m_xz m * px b + m_yz m * py b + m_zz m * pz b); [field; exact E0 | lra]. }
      subst x. unfold odiv, vscal. cbn [px py pz]. destruct (Req_EM_T _ 0) as [_|NE]; [reflexivity|]. exfalso. apply NE.
      apply (Rmult_eq_reg_l a'); [|exact E0]. transitivity (a' * IZR (m_n m) + (px b * m_x m + py b * m_y m + pz b * m_z m)); [field; exact E0 | rewrite K0; ring]. }
  unfold nval. destruct (stencil dim N i) as [|ps l]; [congruence|]. cbn [fold_left]. unfold weigh at 2. rewrite EA. cbn [oadd].
  clear. induction l as [|q l IH]; [reflexivity|]. cbn [fold_left]. exact IH.
Qed.
