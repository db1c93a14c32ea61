(** * Proofs_lsq: the interpolation kernels compute least-squares fits. *)
From Verif Require Import Py PyLemmas Model_part Model_conn Spec_conn Model_geom Spec_geom Model_interp Spec_interp Spec_lsq Proofs_interp1 Proofs_interp2 Proofs_interp3 Proofs_fvm1 Proofs_fvm2.
From Coq Require Import Permutation Lra Psatz.
Open Scope Z_scope.

Lemma misfit_perm l l' c g : Permutation l l' -> misfit l c g = misfit l' c g.
Proof. intros P. unfold misfit. apply rsum_perm, Permutation_map, P. Qed.
Lemma best_fit_perm dim l l' c g : Permutation l l' -> best_fit dim l c g -> best_fit dim l' c g.
Proof.
  intros P (H1 & H2 & H3). split; [exact H1|]. split.
  - intros c' g' Hg. rewrite <- !(misfit_perm _ _ _ _ P). apply H2; exact Hg.
  - intros c' g' Hg. rewrite <- !(misfit_perm _ _ _ _ P). apply H3; exact Hg.
Qed.
Lemma misfit_from_perm x w l l' g : Permutation l l' -> misfit_from x w l g = misfit_from x w l' g.
Proof. intros P. unfold misfit_from. apply rsum_perm, Permutation_map, P. Qed.
Lemma best_slope_perm dim x w l l' g : Permutation l l' -> best_slope dim x w l g -> best_slope dim x w l' g.
Proof.
  intros P (H1 & H2 & H3). split; [exact H1|]. split.
  - intros g' Hg. rewrite <- !(misfit_from_perm _ _ _ _ _ P). apply H2; exact Hg.
  - intros g' Hg. rewrite <- !(misfit_from_perm _ _ _ _ _ P). apply H3; exact Hg.
Qed.
Lemma best_fit_unique dim l c g c' g' : best_fit dim l c g -> best_fit dim l c' g' -> c' = c /\ g' = g.
Proof. intros (G1 & _ & H3) (G1' & H2' & _). apply H3; [exact G1' | apply H2'; exact G1]. Qed.
Lemma best_slope_unique dim x w l g g' : best_slope dim x w l g -> best_slope dim x w l g' -> g' = g.
Proof. intros (G1 & _ & H3) (G1' & H2' & _). apply H3; [exact G1' | apply H2'; exact G1]. Qed.

Open Scope R_scope.
(** sums over displacements with data *)
Notation SD f l := (rsum (map f l)).
Lemma Sm_fst f (l : list (pt * R)) : Sm f (map fst l) = SD (fun q => f (fst q)) l.
Proof. induction l as [|q l IH]; [reflexivity|]. cbn [map Sm]. rewrite rsum_cons, IH. reflexivity. Qed.
Definition dat (l : list (pt * R)) : pt := P3 (SD (fun q => px (fst q) * snd q) l) (SD (fun q => py (fst q) * snd q) l) (SD (fun q => pz (fst q) * snd q) l).
Definition dat0 (l : list (pt * R)) : R := SD snd l.
(** pythagoras: at a solution of the normal equations *)
Lemma pythagoras l a b a' b' :
  let m := momS (map fst l) in
  (a' - a) * (a * IZR (m_n m) + (px b * m_x m + py b * m_y m + pz b * m_z m) - dat0 l) = 0 ->
  normal_eqs m b (P3 (px (dat l) - a * m_x m) (py (dat l) - a * m_y m) (pz (dat l) - a * m_z m)) ->
  SD (fun q => (lin a' b' (fst q) - snd q) * (lin a' b' (fst q) - snd q)) l =
  SD (fun q => (lin a b (fst q) - snd q) * (lin a b (fst q) - snd q)) l + Sm (fun d => lin (a' - a) (vsub b' b) d * lin (a' - a) (vsub b' b) d) (map fst l).
Proof.
  intros m H0 (N1 & N2 & N3). cbn [px py pz] in *.
  set (da := a' - a) in *. set (db := vsub b' b).
  assert (E : SD (fun q => (lin a' b' (fst q) - snd q) * (lin a' b' (fst q) - snd q)) l =
    SD (fun q => (lin a b (fst q) - snd q) * (lin a b (fst q) - snd q)) l + Sm (fun d => lin da db d * lin da db d) (map fst l)
    + 2 * (da * (a * IZR (m_n m) + (px b * m_x m + py b * m_y m + pz b * m_z m) - dat0 l)
           + px db * (a * m_x m + (m_xx m * px b + m_xy m * py b + m_xz m * pz b) - px (dat l))
           + py db * (a * m_y m + (m_xy m * px b + m_yy m * py b + m_yz m * pz b) - py (dat l))
           + pz db * (a * m_z m + (m_xz m * px b + m_yz m * py b + m_zz m * pz b) - pz (dat l)))).
  { subst m. clear. unfold dat, dat0. cbn [px py pz]. induction l as [|q l IH]; [cbn; ring|]. cbn [map]. rewrite !rsum_cons. cbn [Sm]. rewrite IH.
    cbn [momS m_xx m_yy m_zz m_xy m_xz m_yz m_x m_y m_z m_n]. cbn [Sm]. rewrite zlen_cons, plus_IZR. subst da db. unfold lin, vsub. cbn [px py pz]. ring. }
  rewrite E, H0, N1, N2, N3. ring.
Qed.
(** the normal equations have a solution *)
Lemma solve_normal dim l r : (dim = 2 \/ dim = 3)%Z -> (dim = 2%Z -> pz r = 0 /\ forall d, In d l -> pz d = 0) -> lindep dim l ->
  exists y, ((dim = 2)%Z -> pz y = 0) /\ normal_eqs (momS l) y r.
Proof.
  intros [-> | ->] Hz HI.
  - destruct (Hz eq_refl) as (Hr & Hd). pose proof (D2_nonzero l Hd HI) as HD. destruct (planar_moms l Hd) as (E1 & E2 & E3 & E4).
    set (m := momS l) in *. set (D := m_xx m * m_yy m - m_xy m * m_xy m) in *.
    exists (P3 ((m_yy m * px r - m_xy m * py r) / D) ((m_xx m * py r - m_xy m * px r) / D) 0). split; [reflexivity|].
    unfold normal_eqs. cbn [px py pz]. rewrite E1, E2, E3, Hr. unfold D in *. repeat split; field; exact HD.
  - pose proof (D3_nonzero l HI) as HD. set (m := momS l) in *.
    exists (P3 (((m_yy m * m_zz m - m_yz m * m_yz m) * px r + (m_xz m * m_yz m - m_xy m * m_zz m) * py r + (m_xy m * m_yz m - m_xz m * m_yy m) * pz r) / D3 m)
               (((m_xz m * m_yz m - m_xy m * m_zz m) * px r + (m_xx m * m_zz m - m_xz m * m_xz m) * py r + (m_xy m * m_xz m - m_xx m * m_yz m) * pz r) / D3 m)
               (((m_xy m * m_yz m - m_xz m * m_yy m) * px r + (m_xy m * m_xz m - m_xx m * m_yz m) * py r + (m_xx m * m_yy m - m_xy m * m_xy m) * pz r) / D3 m)).
    split; [intros; lia|]. unfold normal_eqs. cbn [px py pz]. unfold D3 in *. repeat split; field; exact HD.
Qed.
Lemma planar_dat l : (forall d, In d (map fst l) -> pz d = 0) -> pz (dat l) = 0.
Proof. intros H. unfold dat. cbn [pz]. apply rsum_map_zero. intros q Hq. rewrite H by (apply in_map; exact Hq). ring. Qed.

(** displaced data *)
Definition displaced (dim : Z) (v : pt) (l : list (pt * R)) : list (pt * R) := map (fun q => (disp dim (fst q) v, snd q)) l.
Lemma displaced_fst dim v l : map fst (displaced dim v l) = map (fun p => disp dim p v) (map fst l).
Proof. unfold displaced. rewrite !map_map. reflexivity. Qed.
Lemma misfit_lin dim v l c g : (dim = 2 \/ dim = 3)%Z -> gradient dim g ->
  misfit l c g = SD (fun q => (lin (affine c g v) g (fst q) - snd q) * (lin (affine c g v) g (fst q) - snd q)) (displaced dim v l).
Proof.
  intros Hd Hg. unfold misfit, displaced. rewrite map_map. apply rsum_map_ext. intros q _. cbn [fst snd].
  replace (lin (affine c g v) g (disp dim (fst q) v)) with (affine c g (fst q)); [reflexivity|]. rewrite lin_disp by assumption. unfold affine, vdot. ring.
Qed.

(** the value of the fit at v is the weighted sum of the data *)
Theorem node_fit dim v l : (dim = 2 \/ dim = 3)%Z -> spans dim (map fst l) ->
  let ds := map (fun p => disp dim p v) (map fst l) in
  exists c g x, best_fit dim l c g /\ (if (dim =? 2)%Z then lambda2 (momS ds) else lambda3 (momS ds)) = Some x /\
  let m := momS ds in let den := IZR (m_n m) + px x * m_x m + py x * m_y m + pz x * m_z m in
  den <> 0 /\ affine c g v = SD (fun q => lin 1 x (disp dim (fst q) v) / den * snd q) l.
Proof.
  intros Hd HS ds. pose proof (spans_indep dim v _ Hd HS) as HI. fold ds in HI.
  assert (Hz : dim = 2%Z -> forall d, In d ds -> pz d = 0).
  { intros -> d Hin. apply in_map_iff in Hin as (p & <- & _). reflexivity. }
  destruct (lambda_ok dim ds Hd Hz (indep_lin _ _ HI)) as (x & El & Hx & Hn).
  pose proof (denom_nonzero dim _ x Hx HI Hn) as HD. set (dl := displaced dim v l).
  assert (Eds : map fst dl = ds) by apply displaced_fst.
  assert (Hr : dim = 2%Z -> pz (dat dl) = 0 /\ forall d, In d ds -> pz d = 0).
  { intros E. split; [apply planar_dat; rewrite Eds; apply Hz; exact E | apply Hz; exact E]. }
  destruct (solve_normal dim ds (dat dl) Hd Hr (indep_lin _ _ HI)) as (y & Hy & Hyn).
  cbv zeta. set (m := momS ds) in *. set (den := IZR (m_n m) + px x * m_x m + py x * m_y m + pz x * m_z m) in *.
  set (a := (dat0 dl + vdot x (dat dl)) / den). set (g := vadd y (vscal a x)).
  assert (Hg : gradient dim g) by (intros E; unfold g; cbn; rewrite (Hx E), (Hy E); ring).
  set (c := a - vdot g v). assert (Ec : affine c g v = a) by (unfold c, affine; ring).
  destruct Hn as (N1 & N2 & N3). destruct Hyn as (Y1 & Y2 & Y3). cbn [px py pz] in N1, N2, N3.
  assert (NE : normal_eqs m g (P3 (px (dat dl) - a * m_x m) (py (dat dl) - a * m_y m) (pz (dat dl) - a * m_z m))).
  { unfold g, normal_eqs, vadd, vscal. cbn [px py pz]. rewrite <- Y1, <- Y2, <- Y3. 
    repeat split.
    - transitivity (m_xx m * px y + m_xy m * py y + m_xz m * pz y + a * (m_xx m * px x + m_xy m * py x + m_xz m * pz x)); [ring | rewrite N1; ring].
    - transitivity (m_xy m * px y + m_yy m * py y + m_yz m * pz y + a * (m_xy m * px x + m_yy m * py x + m_yz m * pz x)); [ring | rewrite N2; ring].
    - transitivity (m_xz m * px y + m_yz m * py y + m_zz m * pz y + a * (m_xz m * px x + m_yz m * py x + m_zz m * pz x)); [ring | rewrite N3; ring]. }
  assert (SY : px y * m_x m + py y * m_y m + pz y * m_z m = - vdot x (dat dl)).
  { unfold vdot. rewrite <- Y1, <- Y2, <- Y3.
    replace (m_x m) with (- (m_xx m * px x + m_xy m * py x + m_xz m * pz x)) by lra.
    replace (m_y m) with (- (m_xy m * px x + m_yy m * py x + m_yz m * pz x)) by lra.
    replace (m_z m) with (- (m_xz m * px x + m_yz m * py x + m_zz m * pz x)) by lra. ring. }
  assert (Z0 : a * IZR (m_n m) + (px g * m_x m + py g * m_y m + pz g * m_z m) - dat0 dl = 0).
  { unfold g, vadd, vscal. cbn [px py pz].
    transitivity (a * den + (px y * m_x m + py y * m_y m + pz y * m_z m) - dat0 dl); [unfold den; ring|]. rewrite SY. unfold a. field. exact HD. }
  assert (PY : forall c' g', gradient dim g' -> misfit l c' g' = misfit l c g + Sm (fun d => lin (affine c' g' v - a) (vsub g' g) d * lin (affine c' g' v - a) (vsub g' g) d) ds).
  { intros c' g' Hg'. rewrite !(misfit_lin dim v l) by assumption. fold dl. rewrite Ec. rewrite <- Eds. apply pythagoras; rewrite ?Eds; fold m; [rewrite Z0; ring | exact NE]. }
  exists c, g, x. fold den. split; [|split; [exact El|split; [exact HD|]]].
  - split; [exact Hg|]. split.
    + intros c' g' Hg'. rewrite (PY c' g' Hg'). match goal with |- _ <= _ + ?s => assert (0 <= s) by (apply Sm_nonneg; intros; apply Rle_0_sqr) end. lra.
    + intros c' g' Hg' HLE. rewrite (PY c' g' Hg') in HLE. match type of HLE with _ + ?s <= _ => assert (0 <= s) by (apply Sm_nonneg; intros; apply Rle_0_sqr); assert (E0 : s = 0) by lra end.
      pose proof (Q_zero _ _ _ E0) as HQ. destruct (HI (affine c' g' v - a) (vsub g' g)) as (A & B); [intros E; unfold vsub; cbn [px py pz]; rewrite (Hg' E), (Hg E); ring | exact HQ |].
      assert (Eg : g' = g). { destruct g' as [u1 u2 u3], g as [w1 w2 w3]. unfold vsub, vzero in B. cbn [px py pz] in B. injection B as B1 B2 B3. f_equal; lra. }
      split; [|exact Eg]. rewrite Eg in A. rewrite <- Ec in A. unfold affine in A. lra.
  - rewrite Ec. unfold a, dat0, dl, displaced, dat. rewrite !map_map. cbn [fst snd px py pz]. unfold vdot. cbn [px py pz].
    clear - HD. clearbody den. clear m. induction l as [|q l IH]; [cbn; field; exact HD|]. cbn [map]. rewrite !rsum_cons. rewrite <- IH. unfold lin. field. exact HD.
Qed.

(** the gradient of the best fit through the value at x *)
Theorem slope_fit dim W x wi l : (dim = 2 \/ dim = 3)%Z -> spans_from dim x (map fst l) ->
  exists g, (if (dim =? 2)%Z then grad2 else grad3) (qfold dim W x wi l q0) = Some g /\
            best_slope dim x wi (map (fun ps => (fst ps, value_at W (snd ps))) l) g.
Proof.
  intros Hd HS. pose proof (spans_from_lindep dim x _ Hd HS) as HI.
  set (dl := map (fun ps : pt * source => (disp dim (fst ps) x, value_at W (snd ps) - wi)) l).
  assert (Eds : map (fun p => disp dim p x) (map fst l) = map fst dl) by (unfold dl; rewrite !map_map; reflexivity). rewrite Eds in HI.
  assert (HM : q_m (qfold dim W x wi l q0) = momS (map fst dl)) by (rewrite qfold_m; unfold dl; rewrite map_map; reflexivity).
  assert (HJ : q_j (qfold dim W x wi l q0) = dat dl).
  { unfold dl. clear. induction l as [|ps l IH] using rev_ind; [reflexivity|]. unfold qfold in *. rewrite fold_left_app, map_app. cbn [fold_left map q_add q_j]. rewrite IH.
    unfold dat, padd, pscal. rewrite !map_app, !rsum_app. cbn [map px py pz fst snd]. rewrite !rsum_cons. change (rsum []) with 0. f_equal; ring. }
  assert (Hz : dim = 2%Z -> forall d, In d (map fst dl) -> pz d = 0).
  { intros E d Hin. rewrite <- Eds in Hin. apply in_map_iff in Hin as (p & <- & _). unfold disp. rewrite E. reflexivity. }
  assert (Hr : dim = 2%Z -> pz (dat dl) = 0 /\ forall d, In d (map fst dl) -> pz d = 0) by (intros E; split; [apply planar_dat|]; apply Hz; exact E).
  destruct (solve_normal dim (map fst dl) (dat dl) Hd Hr HI) as (g & Hg & NE). exists g. split.
  - destruct (qfold dim W x wi l q0) as [m j]. cbn [q_m q_j] in *. subst m j. destruct Hd as [-> | ->]; cbn [Z.eqb Pos.eqb].
    + pose proof (D2_nonzero _ (Hz eq_refl) HI) as HD. specialize (Hg eq_refl). destruct NE as (N1 & N2 & _). rewrite Hg in N1, N2. unfold grad2. cbn [q_m q_j]. rewrite <- N1, <- N2. cbv zeta. rewrite !odiv_some by exact HD.
      f_equal. destruct g as [g1 g2 g3]. cbn [px py pz] in *. subst g3. f_equal; field; exact HD.
    + pose proof (D3_nonzero _ HI) as HD. unfold D3 in HD. destruct NE as (N1 & N2 & N3). unfold grad3. cbn [q_m q_j]. rewrite <- N1, <- N2, <- N3. cbv zeta.
      rewrite !odiv_some by lra. f_equal. destruct g as [g1 g2 g3]. cbn [px py pz] in *. f_equal; field; lra.
  - assert (ML : forall g', gradient dim g' -> misfit_from x wi (map (fun ps => (fst ps, value_at W (snd ps))) l) g' = SD (fun q => (lin 0 g' (fst q) - snd q) * (lin 0 g' (fst q) - snd q)) dl).
    { intros g' Hg'. unfold misfit_from, dl. rewrite !map_map. apply rsum_map_ext. intros ps _. cbn [fst snd]. cbv zeta.
      replace (wi + vdot g' (vsub (fst ps) x) - value_at W (snd ps)) with (lin 0 g' (disp dim (fst ps) x) - (value_at W (snd ps) - wi)); [reflexivity|].
      rewrite lin_disp by assumption. unfold vdot, vsub. cbn [px py pz]. ring. }
    assert (PY : forall g', gradient dim g' -> misfit_from x wi (map (fun ps => (fst ps, value_at W (snd ps))) l) g' =
      misfit_from x wi (map (fun ps => (fst ps, value_at W (snd ps))) l) g + Sm (fun d => lin 0 (vsub g' g) d * lin 0 (vsub g' g) d) (map fst dl)).
    { intros g' Hg'. rewrite !ML by assumption. rewrite (pythagoras dl 0 g 0 g'); [f_equal; apply Sm_ext; intros; rewrite Rminus_0_r; reflexivity | ring |].
      destruct NE as (N1 & N2 & N3). unfold normal_eqs. cbn [px py pz]. rewrite N1, N2, N3. repeat split; ring. }
    split; [exact Hg|]. split.
    + intros g' Hg'. rewrite (PY g' Hg'). match goal with |- _ <= _ + ?s => assert (0 <= s) by (apply Sm_nonneg; intros; apply Rle_0_sqr) end. lra.
    + intros g' Hg' HLE. rewrite (PY g' Hg') in HLE. match type of HLE with _ + ?s <= _ => assert (0 <= s) by (apply Sm_nonneg; intros; apply Rle_0_sqr); assert (E0 : s = 0) by lra end.
      pose proof (HI (vsub g' g)) as B. assert (B' : vsub g' g = vzero) by (apply B; [intros E; unfold vsub; cbn [px py pz]; rewrite (Hg' E), (Hg E); ring | apply Q_zero; exact E0]).
      destruct g' as [u1 u2 u3], g as [w1 w2 w3]. unfold vsub, vzero in B'. cbn [px py pz] in B'. injection B' as B1 B2 B3. f_equal; lra.
Qed.

(** the model's node value *)
Lemma nval_fit dim N W i : (dim = 2 \/ dim = 3)%Z -> spans dim (map fst (stencil dim N i)) ->
  exists c g, best_fit dim (map (fun ps => (fst ps, value_at W (snd ps))) (stencil dim N i)) c g /\ nval dim N W i = Some (affine c g (nthZ vzero (nd_vertex N) i)).
Proof.
  intros Hd HS. set (v := nthZ vzero (nd_vertex N) i). set (l := map (fun ps => (fst ps, value_at W (snd ps))) (stencil dim N i)).
  assert (EF : map fst l = map fst (stencil dim N i)) by (unfold l; rewrite map_map; reflexivity).
  destruct (node_fit dim v l Hd) as (c & g & x & HB & El & HD & EV); [rewrite EF; exact HS|]. exists c, g. split; [exact HB|].
  rewrite EF in El, HD, EV. rewrite map_map in El, HD, EV. change (map (fun x => disp dim (fst x) v) (stencil dim N i)) with (disps dim N i) in El, HD, EV.
  rewrite EV. set (m := momS (disps dim N i)) in *. set (den := IZR (m_n m) + px x * m_x m + py x * m_y m + pz x * m_z m) in *.
  assert (EA : forall d, alpha (nvar dim (disps dim N i)) d = Some (lin 1 x d / den)).
  { intros d. unfold alpha, nvar. fold m. cbn [nv_lambda nv_number nv_R px py pz]. rewrite El. fold den. rewrite odiv_some by exact HD. f_equal. unfold lin, Rdiv. ring. }
  unfold nval. fold v. unfold l. rewrite map_map. cbn [fst snd].
  assert (G : forall s s0, fold_left (fun s ps => weigh (nvar dim (disps dim N i)) s (disp dim (fst ps) v) (value_at W (snd ps))) s (Some s0) =
    Some (s0 + SD (fun ps => lin 1 x (disp dim (fst ps) v) / den * value_at W (snd ps)) s)).
  { induction s as [|ps s IH]; intros s0; [cbn; f_equal; ring|]. cbn [fold_left map]. unfold weigh at 2. rewrite EA. cbn [oadd]. rewrite IH, rsum_cons. f_equal. ring. }
  rewrite G. f_equal. ring.
Qed.
