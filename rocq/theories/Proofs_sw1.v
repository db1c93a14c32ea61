(** * Proofs_sw1: the eigenvalues computed by srnh_scheme are u + c, u - c and 0. *)
From Verif Require Import Py Model_geom Model_sw.
From Coq Require Import Reals Lra Psatz Ratan Rtrigo1.
Open Scope R_scope.

Lemma cos_triple a : cos (3 * a) = 4 * cos a ^ 3 - 3 * cos a.
Proof.
  replace (3 * a) with (a + (a + a)) by ring. rewrite cos_plus, cos_plus, sin_plus. pose proof (sin2_cos2 a) as H. unfold Rsqr in H.
  replace (cos a * (cos a * cos a - sin a * sin a) - sin a * (sin a * cos a + cos a * sin a)) with (cos a ^ 3 - 3 * cos a * (sin a * sin a)) by ring.
  replace (sin a * sin a) with (1 - cos a * cos a) by lra. ring.
Qed.
Lemma cos_upper x : 0 <= x <= PI / 3 -> 1 / 2 <= cos x.
Proof. intros H. rewrite <- cos_PI3. pose proof PI_RGT_0. apply cos_decr_1; lra. Qed.
Lemma cos_lower x : 2 * PI / 3 <= x <= PI -> cos x <= - (1 / 2).
Proof. intros H. pose proof (cos_upper (PI - x)). replace x with (PI - (PI - x)) by ring. rewrite Rtrigo_facts.cos_pi_minus. lra. Qed.
Lemma cos_middle x : 4 * PI / 3 <= x <= 5 * PI / 3 -> - (1 / 2) <= cos x <= 1 / 2.
Proof.
  intros H. pose proof PI_RGT_0. replace x with ((x - PI) + PI) by ring. rewrite neg_cos. assert (A : PI / 3 <= x - PI <= 2 * PI / 3) by lra.
  assert (B1 : cos (x - PI) <= 1 / 2) by (rewrite <- cos_PI3; apply cos_decr_1; lra).
  assert (B2 : - (1 / 2) <= cos (x - PI)). { replace (- (1 / 2)) with (cos (2 * (PI / 3))). - apply cos_decr_1; lra. - rewrite cos_2PI3. lra. } lra.
Qed.

Section Eig.
Context (u c : R) (Hc : 0 < c).
Let Q := - (u ^ 2 + 3 * c ^ 2) / 9.
Let S := u * (18 * c ^ 2 - 2 * u ^ 2) / 54.
Let r := sqrt (- Q).
Let lam k := 2 * sqrt (- Q) * cos ((acos (S / sqrt (- Q ^ 3)) + k * PI) / 3) + 2 / 3 * u.
Lemma Q_neg : 0 < - Q.
Proof. unfold Q. nra. Qed.
Lemma r_pos : 0 < r.
Proof. apply sqrt_lt_R0. exact Q_neg. Qed.
Lemma r_sq : r * r = - Q.
Proof. apply sqrt_sqrt. left. exact Q_neg. Qed.
Lemma sqrt_Q3 : sqrt (- Q ^ 3) = r ^ 3.
Proof. replace (- Q ^ 3) with ((r ^ 3) * (r ^ 3)) by (replace (- Q ^ 3) with ((- Q) * (- Q) * (- Q)) by ring; rewrite <- r_sq; ring). apply sqrt_square. apply pow_le. left. exact r_pos. Qed.
Lemma disc : r ^ 6 - S ^ 2 = c ^ 2 * (u ^ 2 - c ^ 2) ^ 2 / 27.
Proof. replace (r ^ 6) with ((r * r) ^ 3) by ring. rewrite r_sq. unfold Q, S. field. Qed.
Lemma arg_bound : -1 <= S / sqrt (- Q ^ 3) <= 1.
Proof.
  rewrite sqrt_Q3. assert (P : 0 < r ^ 3) by (apply pow_lt, r_pos). assert (H : S ^ 2 <= (r ^ 3) ^ 2). { pose proof disc as D. pose proof (pow2_ge_0 (c * (u ^ 2 - c ^ 2))) as E. replace ((r ^ 3) ^ 2) with (r ^ 6) by ring. nra. }
  assert (E : S = S / r ^ 3 * r ^ 3) by (field; apply Rgt_not_eq, r_pos). set (t := S / r ^ 3) in *. assert (t ^ 2 <= 1). { rewrite E in H. assert (0 < (r ^ 3) ^ 2) by (apply pow_lt; exact P). nra. } nra.
Qed.
Lemma theta_range : 0 <= acos (S / sqrt (- Q ^ 3)) <= PI.
Proof. apply acos_bound. Qed.
(** the shifted eigenvalue is a root of the cubic *)
Lemma lam_root k : cos (acos (S / sqrt (- Q ^ 3)) + k * PI) = cos (acos (S / sqrt (- Q ^ 3))) -> lam k * (lam k - (u + c)) * (lam k - (u - c)) = 0.
Proof.
  intros HK. unfold lam. fold r. set (a := (acos (S / sqrt (- Q ^ 3)) + k * PI) / 3) in *. replace (acos (S / sqrt (- Q ^ 3)) + k * PI) with (3 * a) in HK by (unfold a; field).
  rewrite cos_triple in HK. rewrite cos_acos in HK by exact arg_bound. rewrite sqrt_Q3 in HK.
  assert (E : 8 * r ^ 3 * cos a ^ 3 - 6 * r ^ 3 * cos a = 2 * S). { pose proof r_pos as P. replace (8 * r ^ 3 * cos a ^ 3 - 6 * r ^ 3 * cos a) with (2 * r ^ 3 * (4 * cos a ^ 3 - 3 * cos a)) by ring. rewrite HK. field. lra. }
  replace (6 * r ^ 3 * cos a) with (6 * (r * r) * r * cos a) in E by ring. rewrite r_sq in E. set (y := 2 * r * cos a) in *.
  replace (8 * r ^ 3 * cos a ^ 3) with (y ^ 3) in E by (unfold y; ring). replace (6 * - Q * r * cos a) with (3 * - Q * y) in E by (unfold y; ring).
  unfold Q, S in E. nra.
Qed.
Lemma lam_roots k : cos (acos (S / sqrt (- Q ^ 3)) + k * PI) = cos (acos (S / sqrt (- Q ^ 3))) -> lam k = 0 \/ lam k = u + c \/ lam k = u - c.
Proof. intros H. apply lam_root in H. apply Rmult_integral in H as [H|H]; [|right; right; lra]. apply Rmult_integral in H as [H|H]; [left; exact H | right; left; lra]. Qed.
Lemma r_sq' : 9 * r ^ 2 = u ^ 2 + 3 * c ^ 2.
Proof. replace (9 * r ^ 2) with (9 * (r * r)) by ring. rewrite r_sq. unfold Q. field. Qed.
Lemma lam1_bound : r <= lam 0 - 2 / 3 * u /\ (lam 0 = 0 \/ lam 0 = u + c \/ lam 0 = u - c).
Proof.
  pose proof theta_range as T. pose proof r_pos. pose proof PI_RGT_0. split.
  - unfold lam. fold r. pose proof (cos_upper ((acos (S / sqrt (- Q ^ 3)) + 0 * PI) / 3) ltac:(lra)). nra.
  - apply lam_roots. f_equal. ring.
Qed.
Lemma lam2_bound : lam 2 - 2 / 3 * u <= - r /\ (lam 2 = 0 \/ lam 2 = u + c \/ lam 2 = u - c).
Proof.
  pose proof theta_range as T. pose proof r_pos. pose proof PI_RGT_0. split.
  - unfold lam. fold r. pose proof (cos_lower ((acos (S / sqrt (- Q ^ 3)) + 2 * PI) / 3) ltac:(lra)). nra.
  - apply lam_roots. replace (acos (S / sqrt (- Q ^ 3)) + 2 * PI) with (acos (S / sqrt (- Q ^ 3)) + 2 * INR 1 * PI) by (simpl; ring). apply (cos_period _ 1).
Qed.
Lemma lam3_bound : - r <= lam 4 - 2 / 3 * u <= r /\ (lam 4 = 0 \/ lam 4 = u + c \/ lam 4 = u - c).
Proof.
  pose proof theta_range as T. pose proof r_pos. pose proof PI_RGT_0. split.
  - unfold lam. fold r. pose proof (cos_middle ((acos (S / sqrt (- Q ^ 3)) + 4 * PI) / 3) ltac:(lra)). nra.
  - apply lam_roots. replace (acos (S / sqrt (- Q ^ 3)) + 4 * PI) with (acos (S / sqrt (- Q ^ 3)) + 2 * INR 2 * PI) by (simpl; ring). apply (cos_period _ 2).
Qed.
Lemma eig_sub : - c < u < c -> lam 0 = u + c /\ lam 2 = u - c /\ lam 4 = 0.
Proof.
  intros H. pose proof r_sq' as E. pose proof r_pos as P. destruct lam1_bound as (A & A'), lam2_bound as (B & B'), lam3_bound as (D & D').
  assert (M : u ^ 2 < c ^ 2) by nra. 
  split; [|split].
  - destruct A' as [X|[X|X]]; [exfalso|exact X|exfalso]; rewrite X in A; nra.
  - destruct B' as [X|[X|X]]; [exfalso|exfalso|exact X]; rewrite X in B; nra.
  - destruct D' as [X|[X|X]]; [exact X|exfalso|exfalso]; rewrite X in D; nra.
Qed.
Lemma eig_super : c < u -> lam 0 = u + c /\ lam 2 = 0 /\ lam 4 = u - c.
Proof.
  intros H. pose proof r_sq' as E. pose proof r_pos as P. destruct lam1_bound as (A & A'), lam2_bound as (B & B'), lam3_bound as (D & D').
  split; [|split].
  - destruct A' as [X|[X|X]]; [exfalso|exact X|exfalso]; rewrite X in A; nra.
  - destruct B' as [X|[X|X]]; [exact X|exfalso|exfalso]; rewrite X in B; nra.
  - destruct D' as [X|[X|X]]; [exfalso|exfalso|exact X]; rewrite X in D; nra.
Qed.
Lemma eig_super_neg : u < - c -> lam 0 = 0 /\ lam 2 = u - c /\ lam 4 = u + c.
Proof.
  intros H. pose proof r_sq' as E. pose proof r_pos as P. destruct lam1_bound as (A & A'), lam2_bound as (B & B'), lam3_bound as (D & D').
  split; [|split].
  - destruct A' as [X|[X|X]]; [exact X|exfalso|exfalso]; rewrite X in A; nra.
  - destruct B' as [X|[X|X]]; [exfalso|exfalso|exact X]; rewrite X in B; nra.
  - destruct D' as [X|[X|X]]; [exfalso|exact X|exfalso]; rewrite X in D; nra.
Qed.
(** at critical speed two of them coincide *)
Lemma eig_critical : u = c -> lam 0 = 2 * c /\ lam 2 = 0 /\ lam 4 = 0.
Proof.
  intros H. pose proof r_sq' as E. pose proof r_pos as P. destruct lam1_bound as (A & A'), lam2_bound as (B & B'), lam3_bound as (D & D'). rewrite H in *.
  assert (R1 : r = 2 / 3 * c) by nra.
  split; [|split].
  - destruct A' as [X|[X|X]]; [exfalso|lra|exfalso]; rewrite X in A; lra.
  - destruct B' as [X|[X|X]]; lra.
  - destruct D' as [X|[X|X]]; lra.
Qed.
End Eig.
Lemma eig_critical_neg u c : 0 < c -> u = - c ->
  let Q := - (u ^ 2 + 3 * c ^ 2) / 9 in let S := u * (18 * c ^ 2 - 2 * u ^ 2) / 54 in let lam k := 2 * sqrt (- Q) * cos ((acos (S / sqrt (- Q ^ 3)) + k * PI) / 3) + 2 / 3 * u in
  lam 0 = 0 /\ lam 4 = 0.
Proof.
  intros Hc H Q S lam. pose proof (r_sq' u c) as E. pose proof (r_pos u c Hc) as P. destruct (lam1_bound u c Hc) as (A & A'), (lam3_bound u c Hc) as (D & D').
  change (2 * sqrt (- (- (u ^ 2 + 3 * c ^ 2) / 9)) * cos ((acos (u * (18 * c ^ 2 - 2 * u ^ 2) / 54 / sqrt (- (- (u ^ 2 + 3 * c ^ 2) / 9) ^ 3)) + 0 * PI) / 3) + 2 / 3 * u) with (lam 0) in *.
  change (2 * sqrt (- (- (u ^ 2 + 3 * c ^ 2) / 9)) * cos ((acos (u * (18 * c ^ 2 - 2 * u ^ 2) / 54 / sqrt (- (- (u ^ 2 + 3 * c ^ 2) / 9) ^ 3)) + 4 * PI) / 3) + 2 / 3 * u) with (lam 4) in *.
  specialize (E Hc). set (r := sqrt (- (- (u ^ 2 + 3 * c ^ 2) / 9))) in *. assert (R1 : r = 2 / 3 * c) by (clear A A' D D'; nra). split.
  - destruct A' as [X|[X|X]]; lra.
  - destruct D' as [X|[X|X]]; lra.
Qed.
