(** * Proofs_sw3: srnh_scheme is the physical flux of an intermediate state. *)
From Coq Require Import Reals Lra Psatz Ratan Rtrigo1.
From Verif Require Import Py PyLemmas Model_part Model_conn Model_geom Spec_geom Model_interp Model_fvm Spec_fvm Model_sw Spec_sw Proofs_sw1 Proofs_sw2.
Open Scope R_scope.

Definition star (g : R) (l r : q5) (n : pt) (m : R) : q5 :=
  let ul := (q_hu l * px n + q_hv l * py n) / m in let ur := (q_hu r * px n + q_hv r * py n) / m in
  let vl := (q_hv l * px n - q_hu l * py n) / m in let vr := (q_hv r * px n - q_hu r * py n) / m in
  let U := roe_speed l r n m in let V := (roe_mean l r (q_hv l) (q_hv r) * px n - roe_mean l r (q_hu l) (q_hu r) * py n) / m in
  let K := roe_mean l r (q_hc l) (q_hc r) in let c := celerity g l r in
  let dh := q_h r - q_h l in let du := ur - ul in let dv := vr - vl in let dk := q_hc r - q_hc l in let dz := q_Z r - q_Z l in
  let qn := (ul + ur) / 2 - st_u U c dh du dz / 2 in let qt := (vl + vr) / 2 - st_v U V c dh du dv dz / 2 in
  {| q_h := (q_h l + q_h r) / 2 - st_h U c dh du dz / 2; q_hu := (qn * px n - qt * py n) / m; q_hv := (qn * py n + qt * px n) / m;
     q_hc := (q_hc l + q_hc r) / 2 - st_k U K c dh du dk dz / 2; q_Z := 0 |}.

Lemma nonzero_true l : (forall x, In x l -> x <> 0) -> nonzero l = true.
Proof. intros H. apply forallb_forall. intros x Hx. destruct (Req_EM_T x 0); [exfalso; exact (H x Hx e) | reflexivity]. Qed.
Lemma nonzero_false l x : In x l -> x = 0 -> nonzero l = false.
Proof. intros Hx E. destruct (nonzero l) eqn:Q; [|reflexivity]. unfold nonzero in Q. rewrite forallb_forall in Q. specialize (Q x Hx). destruct (Req_EM_T x 0); [discriminate | contradiction]. Qed.
Lemma nonneg_true l : (forall x, In x l -> 0 <= x) -> nonneg l = true.
Proof. intros H. apply forallb_forall. intros x Hx. destruct (Rle_dec 0 x); [reflexivity | exfalso; exact (n (H x Hx))]. Qed.

Section NF.
Context (g m : R) (l r : q5) (n : pt).
Context (Hg : 0 < g) (Hm : measures n m) (Hl : wet l) (Hr : wet r).
Let c := celerity g l r.
Let U := roe_speed l r n m.
Lemma c_pos : 0 < c.
Proof. unfold c, celerity. apply sqrt_lt_R0. unfold wet in *. nra. Qed.
Lemma c_sq : c ^ 2 = g * ((q_h l + q_h r) / 2).
Proof. unfold c, celerity. unfold wet in *. rewrite <- Rsqr_pow2. apply Rsqr_sqrt. nra. Qed.
Lemma critical_sq : critical g l r n m <-> U ^ 2 = c ^ 2.
Proof.
  unfold critical. fold U c. pose proof c_pos. rewrite <- !Rsqr_pow2. split.
  - intros E. rewrite (Rsqr_abs U), E. reflexivity.
  - intros E. apply Rsqr_eq_abs_0 in E. rewrite E. apply Rabs_pos_eq. lra.
Qed.

(** the eigenvalues *)
Definition lamk (k : R) : R := sw_lambda (sw_Q g ((q_h l + q_h r) / 2) 0 U) (sw_theta (sw_Q g ((q_h l + q_h r) / 2) 0 U) (sw_R g ((q_h l + q_h r) / 2) 0 U)) U k.
Lemma Q_eq : sw_Q g ((q_h l + q_h r) / 2) 0 U = - (U ^ 2 + 3 * c ^ 2) / 9.
Proof. unfold sw_Q. rewrite c_sq. field. Qed.
Lemma R_eq : sw_R g ((q_h l + q_h r) / 2) 0 U = U * (18 * c ^ 2 - 2 * U ^ 2) / 54.
Proof. unfold sw_R. rewrite c_sq. field. Qed.
Lemma lamk_eq k : lamk k = 2 * sqrt (- (- (U ^ 2 + 3 * c ^ 2) / 9)) * cos ((acos (U * (18 * c ^ 2 - 2 * U ^ 2) / 54 / sqrt (- (- (U ^ 2 + 3 * c ^ 2) / 9) ^ 3)) + k * PI) / 3) + 2 / 3 * U.
Proof. unfold lamk, sw_lambda, sw_theta. rewrite Q_eq, R_eq. reflexivity. Qed.
Lemma lam_cases : U ^ 2 <> c ^ 2 ->
  (- c < U < c /\ lamk 0 = U + c /\ lamk 2 = U - c /\ lamk 4 = 0) \/ (c < U /\ lamk 0 = U + c /\ lamk 2 = 0 /\ lamk 4 = U - c) \/ (U < - c /\ lamk 0 = 0 /\ lamk 2 = U - c /\ lamk 4 = U + c).
Proof.
  intros H. pose proof c_pos. rewrite !lamk_eq.
  destruct (Rlt_dec U (- c)) as [H1|H1]; [right; right; split; [exact H1 | apply eig_super_neg; assumption]|].
  destruct (Rlt_dec c U) as [H2|H2]; [right; left; split; [exact H2 | apply eig_super; assumption]|].
  left. assert (- c < U < c) as H3.
  { split; [destruct (Req_dec U (- c)) as [E|E] | destruct (Req_dec U c) as [E|E]]; try lra; exfalso; apply H; rewrite E; ring. }
  split; [exact H3 | apply eig_sub; assumption].
Qed.
Lemma lam_critical : U ^ 2 = c ^ 2 -> (lamk 0 = 0 /\ lamk 4 = 0) \/ (lamk 2 = 0 /\ lamk 4 = 0).
Proof.
  intros H. pose proof c_pos. rewrite !lamk_eq. rewrite <- !Rsqr_pow2 in H. apply Rsqr_eq in H as [E|E].
  - right. apply (eig_critical U c ltac:(assumption) E).
  - left. apply (eig_critical_neg U c ltac:(assumption) E).
Qed.
Lemma sigma_ne : U ^ 2 <> c ^ 2 -> sw_sigma1 U (lamk 0) (lamk 2) (lamk 4) <> 0 /\ sw_sigma2 U (lamk 0) (lamk 2) (lamk 4) <> 0 /\ sw_sigma3 U (lamk 0) (lamk 2) (lamk 4) <> 0.
Proof.
  intros H. pose proof c_pos. unfold sw_sigma1, sw_sigma2, sw_sigma3.
  assert (P : forall x y, x <> 0 -> y <> 0 -> x * y <> 0) by (intros; apply Rmult_integral_contrapositive_currified; assumption).
  destruct (lam_cases H) as [(B & -> & -> & ->)|[(B & -> & -> & ->)|(B & -> & -> & ->)]].
  - split; [|split].
    + replace (_ + _) with ((2 * c) * (c + U)) by ring. apply P; lra.
    + replace (_ - _) with ((- 2 * c) * (c - U)) by ring. apply P; lra.
    + replace (_ + _) with ((U - c) * (c + U)) by ring. apply P; lra.
  - split; [|split].
    + replace (_ + _) with ((2 * c) * (c + U)) by ring. apply P; lra.
    + replace (_ - _) with ((c - U) * (c + U)) by ring. apply P; lra.
    + replace (_ + _) with ((2 * c) * (c - U)) by ring. apply P; lra.
  - split; [|split].
    + replace (_ + _) with ((U - c) * (c + U)) by ring. apply P; lra.
    + replace (_ - _) with ((- 2 * c) * (c - U)) by ring. apply P; lra.
    + replace (_ + _) with ((2 * c) * (c + U)) by ring. apply P; lra.
Qed.
Lemma sigma3_critical : U ^ 2 = c ^ 2 -> sw_sigma3 U (lamk 0) (lamk 2) (lamk 4) = 0.
Proof. intros H. unfold sw_sigma3. destruct (lam_critical H) as [(-> & ->)|(-> & ->)]; ring. Qed.
Lemma rows_ok V K dh du dv dk dz xi : U ^ 2 <> c ^ 2 -> good_rows U V K c dh du dv dk dz 0 xi g ((q_h l + q_h r) / 2) (lamk 0) (lamk 2) (lamk 4).
Proof.
  intros H. pose proof c_pos. destruct (lam_cases H) as [(B & -> & -> & ->)|[(B & -> & -> & ->)|(B & -> & -> & ->)]].
  - apply rows_sub; try reflexivity; assumption.
  - apply rows_super; try reflexivity; assumption.
  - apply rows_super_neg; try reflexivity; assumption.
Qed.


(** the flux, with its named subterms *)
Let V := (roe_mean l r (q_hv l) (q_hv r) * px n - roe_mean l r (q_hu l) (q_hu r) * py n) / m.
Let K := roe_mean l r (q_hc l) (q_hc r).
Lemma roe_eq a b : (a / q_h l * sqrt (q_h l) + b / q_h r * sqrt (q_h r)) / (sqrt (q_h l) + sqrt (q_h r)) = roe_mean l r a b.
Proof. unfold roe_mean. f_equal. ring. Qed.
Lemma d_eq x y : 0 * x * y = 0.
Proof. ring. Qed.
Ltac expose :=
  unfold srnh_scheme; cbv zeta; rewrite !roe_eq;
  replace (roe_mean l r (q_hu l) (q_hu r) * (-1 * py n) + roe_mean l r (q_hv l) (q_hv r) * px n) with (roe_mean l r (q_hv l) (q_hv r) * px n - roe_mean l r (q_hu l) (q_hu r) * py n) by ring;
  replace (q_hu l * (-1 * py n) + q_hv l * px n) with (q_hv l * px n - q_hu l * py n) by ring;
  replace (q_hu r * (-1 * py n) + q_hv r * px n) with (q_hv r * px n - q_hu r * py n) by ring;
  change ((roe_mean l r (q_hu l) (q_hu r) * px n + roe_mean l r (q_hv l) (q_hv r) * py n) / m) with U;
  change ((roe_mean l r (q_hv l) (q_hv r) * px n - roe_mean l r (q_hu l) (q_hu r) * py n) / m) with V;
  change (roe_mean l r (q_hc l) (q_hc r)) with K;
  rewrite !d_eq; change (sw_lambda (sw_Q g ((q_h l + q_h r) / 2) 0 U) (sw_theta (sw_Q g ((q_h l + q_h r) / 2) 0 U) (sw_R g ((q_h l + q_h r) / 2) 0 U)) U ?k) with (lamk k).
Lemma flux_none : U ^ 2 = c ^ 2 -> srnh_scheme l r n m g = None.
Proof.
  intros NC. expose. rewrite (nonzero_false _ (sw_sigma3 U (lamk 0) (lamk 2) (lamk 4))); [rewrite andb_false_r; reflexivity | | apply sigma3_critical; exact NC].
  cbn [In]. do 8 right. left. reflexivity.
Qed.
Lemma flux_star : U ^ 2 <> c ^ 2 -> srnh_scheme l r n m g = if Req_EM_T (q_h (star g l r n m)) 0 then None else Some (physical_flux g (star g l r n m) n).
Proof.
  intros NC. pose proof c_pos as Cp. destruct Hm as (M0 & M2). unfold wet in *.
  assert (S1 : 0 < sqrt (q_h l)) by (apply sqrt_lt_R0; assumption). assert (S2 : 0 < sqrt (q_h r)) by (apply sqrt_lt_R0; assumption).
  expose.
  unfold physical_flux, discharge, star. cbv zeta. cbn [q_h q_hu q_hv q_hc q_Z]. fold U V K c.
  set (ul := (q_hu l * px n + q_hv l * py n) / m). set (ur := (q_hu r * px n + q_hv r * py n) / m). set (vl := (q_hv l * px n - q_hu l * py n) / m). set (vr := (q_hv r * px n - q_hu r * py n) / m).
  destruct (rows_ok V K (q_h r - q_h l) (ur - ul) (vr - vl) (q_hc r - q_hc l) (q_Z r - q_Z l) (1 / (1 - 4 / 10)) NC) as (R0 & R1 & R2 & R3).
  cbv zeta in R0, R1, R2, R3. rewrite R0, R1, R2, R3.
  set (sh := st_h U c (q_h r - q_h l) (ur - ul) (q_Z r - q_Z l)). set (su := st_u U c (q_h r - q_h l) (ur - ul) (q_Z r - q_Z l)).
  set (sv := st_v U V c (q_h r - q_h l) (ur - ul) (vr - vl) (q_Z r - q_Z l)). set (sk := st_k U K c (q_h r - q_h l) (ur - ul) (q_hc r - q_hc l) (q_Z r - q_Z l)).
  set (hs := (q_h l + q_h r) / 2 - sh / 2).
  rewrite nonneg_true.
  2:{ assert (A1 := arg_bound U c Cp). rewrite Q_eq, R_eq. assert (Qn := Q_neg U c Cp). cbv zeta in *. assert (0 <= g * ((q_h l + q_h r) / 2)) by nra.
      assert (0 <= - (- (U ^ 2 + 3 * c ^ 2) / 9) ^ 3). { replace (- (- (U ^ 2 + 3 * c ^ 2) / 9) ^ 3) with ((- (- (U ^ 2 + 3 * c ^ 2) / 9)) ^ 3) by ring. apply pow_le. lra. }
      intros x Hx. cbn [In] in Hx. repeat destruct Hx as [<-|Hx]; lra. }
  cbn [andb]. destruct (sigma_ne NC) as (G1 & G2 & G3).
  destruct (Req_EM_T hs 0) as [E|E].
  - rewrite (nonzero_false _ hs); [reflexivity | | exact E]. cbn [In]. do 10 right. left. reflexivity.
  - rewrite nonzero_true.
    2:{ assert (0 < sqrt (- sw_Q g ((q_h l + q_h r) / 2) 0 U ^ 3)). { rewrite Q_eq, (sqrt_Q3 U c Cp). apply pow_lt, (r_pos U c Cp). }
        assert (c ^ 2 <> 0) by (apply pow_nonzero; lra). assert (hs ^ 3 <> 0) by (apply pow_nonzero; exact E). change (sqrt (g * ((q_h l + q_h r) / 2))) with c.
        intros x Hx. cbn [In] in Hx. repeat destruct Hx as [<-|Hx]; first [assumption | lra]. }
    set (qn := (ul + ur) / 2 - su / 2). set (qt := (vl + vr) / 2 - sv / 2). set (ks := (q_hc l + q_hc r) / 2 - sk / 2).
    f_equal. f_equal; field; lra.
Qed.
End NF.
