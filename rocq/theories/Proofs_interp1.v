(** * Proofs_interp1: loops over the tables, sums, and the least-squares algebra. *)
From Verif Require Import Py PyLemmas Model_part Model_conn Spec_conn Model_geom Spec_geom Model_interp Spec_interp.
From Coq Require Import Permutation Lra Psatz.
Open Scope Z_scope.

Lemma get_last {A} (d : A) l : 0 < zlen l -> get l (-1) = Ok (nthZ d l (zlen l - 1)).
Proof. intros H. rewrite (get_wrap d) by lia. f_equal. f_equal. lia. Qed.
Lemma firstn_nthZ {A} (d : A) l n : 0 <= n <= zlen l -> map (nthZ d l) (range n) = firstn (Z.to_nat n) l.
Proof.
  intros H. assert (E : zlen (firstn (Z.to_nat n) l) = n) by (unfold zlen in *; rewrite firstn_length; lia).
  transitivity (map (nthZ d (firstn (Z.to_nat n) l)) (range n)); [|rewrite <- E at 2; apply map_nthZ_range].
  apply map_ext_in. intros i Hi. apply in_range in Hi. rewrite <- (firstn_skipn (Z.to_nat n) l) at 1. apply nthZ_app_l. lia.
Qed.
Lemma count_loop_ok {A} row n (f : A -> Z -> res A) (g : A -> Z -> A) a :
  row_ok n row -> (forall a c, 0 <= c < n -> f a c = Ok (g a c)) -> count_loop row f a = Ok (fold_left g (counted row) a).
Proof.
  intros (HL & HC & HR) H. unfold count_loop. rewrite (get_last 0) by exact HL. cbn [bind]. fold (row_count row).
  rewrite (foldM_ext _ (fun a j => f a (nthZ 0 row j))).
  2: { intros s x Hx. apply in_range in Hx. rewrite (get_nthZ 0) by lia. reflexivity. }
  rewrite <- (foldM_map f (nthZ 0 row)). rewrite firstn_nthZ by lia. fold (counted row).
  revert a. induction (counted row) as [|c l IH]; intros a; cbn [foldM fold_left]; [reflexivity|].
  rewrite H by (apply HR; left; reflexivity). cbn [bind]. apply IH. intros c' Hc'. apply HR. right. exact Hc'.
Qed.
Lemma ghost_loop_ok {A} rows (f : A -> gentry -> res A) (g : A -> gentry -> A) a :
  (forall a e, In e (real_ghosts rows) -> f a e = Ok (g a e)) -> ghost_loop rows f a = Ok (fold_left g (real_ghosts rows) a).
Proof.
  unfold ghost_loop, real_ghosts. revert a. induction rows as [|e l IH]; intros a H; cbn [foldM filter fold_left]; [reflexivity|].
  cbn [filter] in H. destruct (g_last e =? -1) eqn:E; cbn [negb bind].
  - apply IH. intros; apply H; assumption.
  - rewrite H by (left; reflexivity). cbn [bind fold_left]. apply IH. intros; apply H; right; assumption.
Qed.
Lemma fold_left_map {A B C} (f : A -> C -> A) (g : B -> C) l a : fold_left f (map g l) a = fold_left (fun a b => f a (g b)) l a.
Proof. revert a. induction l; intros; cbn; auto. Qed.
Lemma fold_left_perm {A B} (f : A -> B -> A) l l' a : (forall a x y, f (f a x) y = f (f a y) x) -> Permutation l l' -> fold_left f l a = fold_left f l' a.
Proof. intros C P. revert a. induction P; intros a; cbn; [reflexivity | apply IHP | rewrite C; reflexivity | rewrite IHP1; apply IHP2]. Qed.

Open Scope R_scope.
Fixpoint Sm (f : pt -> R) (l : list pt) : R := match l with [] => 0 | d :: t => f d + Sm f t end.
Lemma Sm_ext f g l : (forall d, In d l -> f d = g d) -> Sm f l = Sm g l.
Proof. induction l; intros H; cbn; [reflexivity|]. rewrite H by (left; reflexivity). rewrite IHl; [reflexivity|]. intros; apply H; right; assumption. Qed.
Lemma Sm_add f g l : Sm (fun d => f d + g d) l = Sm f l + Sm g l.
Proof. induction l; cbn; lra. Qed.
Lemma Sm_scal k f l : Sm (fun d => k * f d) l = k * Sm f l.
Proof. induction l; cbn; [lra | rewrite IHl; lra]. Qed.
Lemma Sm_nonneg f l : (forall d, In d l -> 0 <= f d) -> 0 <= Sm f l.
Proof. induction l; intros H; cbn; [lra|]. specialize (H a (or_introl eq_refl)) as H1. specialize (IHl (fun d Hd => H d (or_intror Hd))). lra. Qed.
Lemma Sm_zero f l : (forall d, In d l -> 0 <= f d) -> Sm f l = 0 -> forall d, In d l -> f d = 0.
Proof.
  induction l; intros H E d Hd; [contradiction|]. cbn in E. specialize (H a (or_introl eq_refl)) as H1. pose proof (Sm_nonneg f l (fun d Hd => H d (or_intror Hd))) as H2.
  destruct Hd as [<-|Hd]; [lra|]. apply IHl; [intros; apply H; right; assumption | lra | exact Hd].
Qed.

Lemma moments_eq a b : m_xx a = m_xx b -> m_yy a = m_yy b -> m_zz a = m_zz b -> m_xy a = m_xy b -> m_xz a = m_xz b -> m_yz a = m_yz b ->
  m_x a = m_x b -> m_y a = m_y b -> m_z a = m_z b -> m_n a = m_n b -> a = b.
Proof. destruct a, b; cbn; intros; congruence. Qed.
Lemma m_add_comm m d e : m_add (m_add m d) e = m_add (m_add m e) d.
Proof. apply moments_eq; cbn; lra || lia. Qed.
Definition moms (l : list pt) : moments := fold_left m_add l m0.
Definition momS (l : list pt) : moments :=
  {| m_xx := Sm (fun d => px d * px d) l; m_yy := Sm (fun d => py d * py d) l; m_zz := Sm (fun d => pz d * pz d) l;
     m_xy := Sm (fun d => px d * py d) l; m_xz := Sm (fun d => px d * pz d) l; m_yz := Sm (fun d => py d * pz d) l;
     m_x := Sm px l; m_y := Sm py l; m_z := Sm pz l; m_n := zlen l |}.
Lemma momS_snoc l d : momS (l ++ [d]) = m_add (momS l) d.
Proof.
  assert (S : forall f, Sm f (l ++ [d]) = Sm f l + f d) by (intros f; induction l; cbn; lra).
  apply moments_eq; cbn; rewrite ?S; try reflexivity. rewrite zlen_app. reflexivity.
Qed.
Lemma moms_momS l : moms l = momS l.
Proof. induction l using rev_ind; [reflexivity|]. unfold moms in *. rewrite fold_left_app. cbn. rewrite IHl. symmetry. apply momS_snoc. Qed.

(** the quadratic form of the affine fit *)
Definition lin (a : R) (b d : pt) : R := a + (px b * px d + py b * py d + pz b * pz d).
Lemma Q_expand a b l : let m := momS l in
  Sm (fun d => lin a b d * lin a b d) l =
    a * a * IZR (m_n m) + 2 * a * (px b * m_x m + py b * m_y m + pz b * m_z m) +
    px b * px b * m_xx m + py b * py b * m_yy m + pz b * pz b * m_zz m + 2 * px b * py b * m_xy m + 2 * px b * pz b * m_xz m + 2 * py b * pz b * m_yz m.
Proof.
  cbn. induction l as [|d l IH]; cbn [Sm]; [cbn; lra|]. rewrite IH. rewrite zlen_cons, plus_IZR. unfold lin. lra.
Qed.
Lemma Q_zero a b l : Sm (fun d => lin a b d * lin a b d) l = 0 -> forall d, In d l -> lin a b d = 0.
Proof.
  intros H d Hd. assert (E : lin a b d * lin a b d = 0).
  { apply (Sm_zero (fun d => lin a b d * lin a b d) l); [intros; apply Rle_0_sqr | exact H | exact Hd]. }
  apply Rmult_integral in E. destruct E; assumption.
Qed.

(** independence: no non-trivial affine (linear) form vanishes on the displacements *)
Definition indep (dim : Z) (l : list pt) : Prop :=
  forall a b, ((dim = 2)%Z -> pz b = 0) -> (forall d, In d l -> lin a b d = 0) -> a = 0 /\ b = vzero.
Definition lindep (dim : Z) (l : list pt) : Prop :=
  forall b, ((dim = 2)%Z -> pz b = 0) -> (forall d, In d l -> lin 0 b d = 0) -> b = vzero.
Lemma indep_lin dim l : indep dim l -> lindep dim l.
Proof. intros H b Hb Hd. destruct (H 0 b Hb Hd) as (_ & E). exact E. Qed.
Lemma pt_zero (b : pt) : px b = 0 -> py b = 0 -> pz b = 0 -> b = vzero.
Proof. destruct b; cbn; intros; subst; reflexivity. Qed.

Lemma D2_nonzero l : (forall d, In d l -> pz d = 0) -> lindep 2 l -> m_xx (momS l) * m_yy (momS l) - m_xy (momS l) * m_xy (momS l) <> 0.
Proof.
  intros Hz HI E. assert (V : forall b, pz b = 0 -> px b * px b * m_xx (momS l) + py b * py b * m_yy (momS l) + 2 * px b * py b * m_xy (momS l) = 0 -> b = vzero).
  { intros b Hb HQ. apply HI; [intros _; exact Hb|]. apply (Q_zero 0 b l). rewrite Q_expand. cbv zeta. rewrite Hb. lra. }
  pose proof (V (P3 (m_yy (momS l)) (- m_xy (momS l)) 0) eq_refl) as V1. cbn [px py pz] in V1.
  assert (H1 : P3 (m_yy (momS l)) (- m_xy (momS l)) 0 = vzero).
  { apply V1. replace (_ + _ + _) with (m_yy (momS l) * (m_xx (momS l) * m_yy (momS l) - m_xy (momS l) * m_xy (momS l))) by ring. rewrite E. ring. }
  apply (f_equal px) in H1. change (m_yy (momS l) = 0) in H1. pose proof (V (P3 0 1 0) eq_refl) as V2. cbn [px py pz] in V2.
  assert (H3 : P3 0 1 0 = vzero) by (apply V2; rewrite H1; ring). injection H3 as H3. lra.
Qed.
Definition D3 (m : moments) : R := m_xx m * m_yy m * m_zz m + 2 * m_xy m * m_xz m * m_yz m - m_xx m * m_yz m * m_yz m - m_yy m * m_xz m * m_xz m - m_zz m * m_xy m * m_xy m.
Lemma D3_nonzero l : lindep 3 l -> D3 (momS l) <> 0.
Proof.
  intros HI E. set (m := momS l) in *.
  assert (V : forall b, px b * px b * m_xx m + py b * py b * m_yy m + pz b * pz b * m_zz m + 2 * px b * py b * m_xy m + 2 * px b * pz b * m_xz m + 2 * py b * pz b * m_yz m = 0 -> b = vzero).
  { intros b HQ. apply HI; [intros; lia|]. apply (Q_zero 0 b l). rewrite Q_expand. fold m. lra. }
  unfold D3 in E.
  pose proof (V (P3 (m_yy m * m_zz m - m_yz m * m_yz m) (m_xz m * m_yz m - m_xy m * m_zz m) (m_xy m * m_yz m - m_xz m * m_yy m))) as V1. cbn [px py pz] in V1.
  match type of V1 with ?P -> _ => assert (H1 : P) end.
  { match goal with |- ?L = 0 => replace L with ((m_yy m * m_zz m - m_yz m * m_yz m) * (m_xx m * m_yy m * m_zz m + 2 * m_xy m * m_xz m * m_yz m - m_xx m * m_yz m * m_yz m - m_yy m * m_xz m * m_xz m - m_zz m * m_xy m * m_xy m)) by ring end. rewrite E. ring. }
  specialize (V1 H1). pose proof (f_equal px V1) as H2. change (m_yy m * m_zz m - m_yz m * m_yz m = 0) in H2. clear H1.
  pose proof (V (P3 0 (m_zz m) (- m_yz m))) as V2. cbn [px py pz] in V2.
  match type of V2 with ?P -> _ => assert (H3 : P) end.
  { match goal with |- ?L = 0 => replace L with (m_zz m * (m_yy m * m_zz m - m_yz m * m_yz m)) by ring end. rewrite H2. ring. }
  specialize (V2 H3). pose proof (f_equal py V2) as H4. change (m_zz m = 0) in H4. clear H3.
  pose proof (V (P3 0 0 1)) as V3. cbn [px py pz] in V3.
  match type of V3 with ?P -> _ => assert (H5 : P) by (rewrite H4; ring) end. specialize (V3 H5). injection V3 as H6. lra.
Qed.

Lemma odiv_some a b : b <> 0 -> odiv a b = Some (a / b).
Proof. intros H. unfold odiv. destruct (Req_EM_T b 0); [contradiction | reflexivity]. Qed.

(** normal equations *)
Definition normal_eqs (m : moments) (x : pt) (r : pt) : Prop :=
  m_xx m * px x + m_xy m * py x + m_xz m * pz x = px r /\ m_xy m * px x + m_yy m * py x + m_yz m * pz x = py r /\ m_xz m * px x + m_yz m * py x + m_zz m * pz x = pz r.
Lemma planar_moms l : (forall d, In d l -> pz d = 0) -> m_zz (momS l) = 0 /\ m_xz (momS l) = 0 /\ m_yz (momS l) = 0 /\ m_z (momS l) = 0.
Proof.
  intros H. cbn. assert (Z0 : forall f, (forall d, In d l -> f d = 0) -> Sm f l = 0).
  { intros f Hf. rewrite (Sm_ext f (fun _ => 0)) by exact Hf. clear. induction l; cbn; lra. }
  repeat split; apply Z0; intros d Hd; rewrite ?(H d Hd); ring.
Qed.
Lemma lambda_ok dim l : (dim = 2 \/ dim = 3)%Z -> (dim = 2%Z -> forall d, In d l -> pz d = 0) -> lindep dim l ->
  exists x, (if (dim =? 2)%Z then lambda2 (momS l) else lambda3 (momS l)) = Some x /\ (dim = 2%Z -> pz x = 0) /\
            normal_eqs (momS l) x (P3 (- m_x (momS l)) (- m_y (momS l)) (- m_z (momS l))).
Proof.
  intros [-> | ->] Hz HI; cbn [Z.eqb Pos.eqb].
  - specialize (Hz eq_refl). pose proof (D2_nonzero l Hz HI) as HD. destruct (planar_moms l Hz) as (E1 & E2 & E3 & E4). unfold lambda2. cbv zeta. rewrite !odiv_some by exact HD.
    eexists. split; [reflexivity|]. split; [reflexivity|]. unfold normal_eqs. cbn [px py pz]. rewrite E1, E2, E3, E4. repeat split; field; exact HD.
  - pose proof (D3_nonzero l HI) as HD. unfold lambda3. cbv zeta. fold (D3 (momS l)). rewrite !odiv_some by exact HD.
    eexists. split; [reflexivity|]. split; [intros; lia|]. unfold normal_eqs. cbn [px py pz]. unfold D3 in *. repeat split; field; exact HD.
Qed.
(** the denominators of the weights *)
Lemma denom_nonzero dim l x : ((dim = 2)%Z -> pz x = 0) -> indep dim l -> normal_eqs (momS l) x (P3 (- m_x (momS l)) (- m_y (momS l)) (- m_z (momS l))) ->
  IZR (m_n (momS l)) + px x * m_x (momS l) + py x * m_y (momS l) + pz x * m_z (momS l) <> 0.
Proof.
  intros Hx HI (N1 & N2 & N3) E. cbn [px py pz] in *. set (m := momS l) in *.
  assert (Q : Sm (fun d => lin 1 x d * lin 1 x d) l = 0).
  { rewrite Q_expand. fold m. cbv zeta.
    replace (_ + _ + _ + _ + _ + _ + _ + _) with
      ((IZR (m_n m) + px x * m_x m + py x * m_y m + pz x * m_z m) +
       px x * (m_xx m * px x + m_xy m * py x + m_xz m * pz x + m_x m) + py x * (m_xy m * px x + m_yy m * py x + m_yz m * pz x + m_y m) + pz x * (m_xz m * px x + m_yz m * py x + m_zz m * pz x + m_z m)) by ring.
    rewrite E, N1, N2, N3. ring. }
  destruct (HI 1 x Hx (Q_zero 1 x l Q)) as (F & _). lra.
Qed.
(** the weights reproduce 1, x, y, z *)
Lemma weights_affine l x c g : let m := momS l in normal_eqs m x (P3 (- m_x m) (- m_y m) (- m_z m)) ->
  Sm (fun d => lin 1 x d * lin c g d) l = c * (IZR (m_n m) + px x * m_x m + py x * m_y m + pz x * m_z m).
Proof.
  intros m (N1 & N2 & N3). cbn [px py pz] in *.
  assert (E : Sm (fun d => lin 1 x d * lin c g d) l =
    c * (IZR (m_n m) + px x * m_x m + py x * m_y m + pz x * m_z m) +
    px g * (m_x m + (m_xx m * px x + m_xy m * py x + m_xz m * pz x)) + py g * (m_y m + (m_xy m * px x + m_yy m * py x + m_yz m * pz x)) + pz g * (m_z m + (m_xz m * px x + m_yz m * py x + m_zz m * pz x))).
  { subst m. clear. induction l as [|d l IH]; [cbn; ring|]. cbn [Sm]. rewrite IH. cbn [momS m_xx m_yy m_zz m_xy m_xz m_yz m_x m_y m_z m_n].
    cbn [Sm]. rewrite zlen_cons, plus_IZR. unfold lin. ring. }
  rewrite E, N1, N2, N3. ring.
Qed.

(** geometric spanning gives independence of the displacements *)
Lemma lin_disp a b p v dim : (dim = 2 \/ dim = 3)%Z -> ((dim = 2)%Z -> pz b = 0) -> lin a b (disp dim p v) = (a - (px b * px v + py b * py v + pz b * pz v)) + (px b * px p + py b * py p + pz b * pz p).
Proof. intros [-> | ->] H; unfold lin, disp; cbn [px py pz Z.eqb Pos.eqb]; [rewrite (H eq_refl)|]; ring. Qed.
Lemma solve2 b1 b2 x1 y1 x2 y2 : x1 * y2 - y1 * x2 <> 0 -> b1 * x1 + b2 * y1 = 0 -> b1 * x2 + b2 * y2 = 0 -> b1 = 0 /\ b2 = 0.
Proof.
  intros HD H1 H2. split.
  - apply (Rmult_eq_reg_r (x1 * y2 - y1 * x2)); [|exact HD]. replace (b1 * (x1 * y2 - y1 * x2)) with ((b1 * x1 + b2 * y1) * y2 - (b1 * x2 + b2 * y2) * y1) by ring. rewrite H1, H2. ring.
  - apply (Rmult_eq_reg_r (x1 * y2 - y1 * x2)); [|exact HD]. replace (b2 * (x1 * y2 - y1 * x2)) with ((b1 * x2 + b2 * y2) * x1 - (b1 * x1 + b2 * y1) * x2) by ring. rewrite H1, H2. ring.
Qed.
Lemma solve3 b u v w : det u v w <> 0 -> vdot b u = 0 -> vdot b v = 0 -> vdot b w = 0 -> b = vzero.
Proof.
  intros HD H1 H2 H3. destruct b as [b1 b2 b3], u as [u1 u2 u3], v as [v1 v2 v3], w as [w1 w2 w3]. unfold det, vdot in *. cbn [px py pz] in *.
  apply pt_zero; cbn [px py pz]; (eapply Rmult_eq_reg_r; [|exact HD]); rewrite Rmult_0_l.
  - transitivity ((b1*u1+b2*u2+b3*u3) * (v2*w3 - v3*w2) - (b1*v1+b2*v2+b3*v3) * (u2*w3 - u3*w2) + (b1*w1+b2*w2+b3*w3) * (u2*v3 - u3*v2)); [ring | rewrite H1, H2, H3; ring].
  - transitivity (- (b1*u1+b2*u2+b3*u3) * (v1*w3 - v3*w1) + (b1*v1+b2*v2+b3*v3) * (u1*w3 - u3*w1) - (b1*w1+b2*w2+b3*w3) * (u1*v3 - u3*v1)); [ring | rewrite H1, H2, H3; ring].
  - transitivity ((b1*u1+b2*u2+b3*u3) * (v1*w2 - v2*w1) - (b1*v1+b2*v2+b3*v3) * (u1*w2 - u2*w1) + (b1*w1+b2*w2+b3*w3) * (u1*v2 - u2*v1)); [ring | rewrite H1, H2, H3; ring].
Qed.
Lemma spans_indep dim v l : (dim = 2 \/ dim = 3)%Z -> spans dim l -> indep dim (map (fun p => disp dim p v) l).
Proof.
  intros Hd HS a b Hb H.
  assert (H' : forall p, In p l -> (a - (px b * px v + py b * py v + pz b * pz v)) + (px b * px p + py b * py p + pz b * pz p) = 0).
  { intros p Hp. rewrite <- (lin_disp a b p v dim Hd Hb). apply H. apply in_map_iff. exists p. auto. }
  assert (E : b = vzero).
  { destruct Hd as [-> | ->]; unfold spans in HS; cbn [Z.eqb Pos.eqb] in HS.
    - specialize (Hb eq_refl). destruct HS as (p & q & r & Hp & Hq & Hr & HT). apply H' in Hp, Hq, Hr. rewrite Hb in *. unfold turn in HT.
      destruct (solve2 (px b) (py b) (px q - px p) (py q - py p) (px r - px p) (py r - py p)) as (E1 & E2); [lra | lra | lra |]. apply pt_zero; auto.
    - destruct HS as (p & q & r & s & Hp & Hq & Hr & Hs & HT). apply H' in Hp, Hq, Hr, Hs. unfold det4 in HT.
      apply (solve3 b _ _ _ HT); unfold vdot, vsub; cbn [px py pz]; lra. }
  split; [|exact E]. assert (exists p, In p l) as (p & Hp).
  { destruct Hd as [-> | ->]; unfold spans in HS; cbn [Z.eqb Pos.eqb] in HS; [destruct HS as (p & _ & _ & Hp & _) | destruct HS as (p & _ & _ & _ & Hp & _)]; eauto. }
  specialize (H' p Hp). rewrite E in H'. cbn in H'. lra.
Qed.
Lemma spans_from_lindep dim x l : (dim = 2 \/ dim = 3)%Z -> spans_from dim x l -> lindep dim (map (fun p => disp dim p x) l).
Proof.
  intros Hd HS b Hb H.
  assert (H' : forall p, In p l -> lin 0 b (disp dim p x) = 0) by (intros p Hp; apply H, in_map_iff; exists p; auto).
  destruct Hd as [-> | ->]; unfold spans_from in HS; cbn [Z.eqb Pos.eqb] in HS.
  - specialize (Hb eq_refl). destruct HS as (p & q & Hp & Hq & HT). apply H' in Hp, Hq. unfold lin, disp in Hp, Hq. cbn [px py pz] in Hp, Hq. rewrite Hb in *. unfold turn in HT.
    destruct (solve2 (px b) (py b) (px p - px x) (py p - py x) (px q - px x) (py q - py x)) as (E1 & E2); [lra | lra | lra |]. apply pt_zero; auto.
  - destruct HS as (p & q & r & Hp & Hq & Hr & HT). apply H' in Hp, Hq, Hr. unfold lin, disp in Hp, Hq, Hr. cbn [px py pz Z.eqb Pos.eqb] in Hp, Hq, Hr. unfold det4 in HT.
    apply (solve3 b _ _ _ HT); unfold vdot, vsub; cbn [px py pz]; lra.
Qed.
