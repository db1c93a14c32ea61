(** * Proofs_sw2: the flux of srnh_scheme in closed form. *)
From Verif Require Import Py PyLemmas Model_geom Model_sw Proofs_sw1.
From Coq Require Import Reals Lra Psatz Ratan Rtrigo1.
Open Scope R_scope.

Lemma sgn_0 : sgn 0 = 0.
Proof. unfold sgn. rewrite Rabs_R0. destruct (Rlt_dec 0 (1 / 10000000000)) as [H|H]; [reflexivity | lra]. Qed.
Lemma sgn_opp x : sgn (- x) = - sgn x.
Proof. unfold sgn. rewrite Rabs_Ropp. destruct (Rlt_dec _ _); [ring|]. unfold Rdiv. ring. Qed.
Lemma sgn_pos x : 1 / 10000000000 <= x -> sgn x = 1.
Proof. intros H. unfold sgn. rewrite Rabs_pos_eq by lra. destruct (Rlt_dec _ _); [lra|]. field. lra. Qed.

Section Star.
Context (U V K c dh du dv dk dz : R).
Let sp := sgn (U + c).
Let sm := sgn (U - c).
Let s0 := sgn U.
Definition st_h : R := (sp * (c - U) + sm * (c + U)) / (2 * c) * dh + (sp - sm) / (2 * c) * du + (sp * c / (2 * (c + U)) + sm * c / (2 * (c - U))) * dz.
Definition st_u : R := (sp - sm) * (c ^ 2 - U ^ 2) / (2 * c) * dh + (sp * (U + c) - sm * (U - c)) / (2 * c) * du + (sp - sm) * c / 2 * dz.
Definition st_v : R := V * st_h - V * s0 * dh + s0 * dv.
Definition st_k : R := K * st_h - K * s0 * dh + s0 * dk.

Context (As xi grav hroe : R) (HA : As = 0) (HS : sqrt (grav * hroe) = c) (Hc : 0 < c).
Definition good_rows (l1 l2 l3 : R) : Prop := let M := rmat As xi grav U V K hroe l1 l2 l3 in let w := [dh; du; dv; dk; dz] in
  row_dot (nthZ [] M 0) w = st_h /\ row_dot (nthZ [] M 1) w = st_u /\ row_dot (nthZ [] M 2) w = st_v /\ row_dot (nthZ [] M 3) w = st_k.
Ltac rows := unfold good_rows, rmat; cbv zeta; rewrite HS, HA;
  change (2 * 0 * xi * V / hroe) with (2 * 0 * xi * V / hroe); replace (2 * 0 * xi * V / hroe) with 0 by (unfold Rdiv; ring);
  unfold nthZ; change (Z.to_nat 0) with 0%nat; change (Z.to_nat 1) with 1%nat; change (Z.to_nat 2) with 2%nat; change (Z.to_nat 3) with 3%nat; cbn [nth];
  unfold row_dot; cbn [combine map fold_left fst snd]; unfold sw_sigma1, sw_sigma2, sw_sigma3, st_v, st_k, st_h, st_u, s0, sp, sm.
Ltac fin := split; [|split; [|split]]; field; repeat split; lra.
Lemma rows_sub : - c < U < c -> good_rows (U + c) (U - c) 0.
Proof.
  intros H. rows. rewrite sgn_0.
  replace (- (U + c - U) * (U - c - U) + (U - c - U) * (0 - U) - (U + c - U) * (0 - U) + (U + c - U) ^ 2) with (2 * (c * (c + U))) by ring.
  replace ((U + c - U) * (U - c - U) + (U - c - U) * (0 - U) - (U + c - U) * (0 - U) - (U - c - U) ^ 2) with (- 2 * (c * (c - U))) by ring.
  replace ((U + c - U) * (U - c - U) - (U - c - U) * (0 - U) - (U + c - U) * (0 - U) + (0 - U) ^ 2) with (- ((c - U) * (c + U))) by ring.
  fin.
Qed.
Lemma rows_super : c < U -> good_rows (U + c) 0 (U - c).
Proof.
  intros H. rows. rewrite sgn_0.
  replace (- (U + c - U) * (0 - U) + (0 - U) * (U - c - U) - (U + c - U) * (U - c - U) + (U + c - U) ^ 2) with (2 * (c * (c + U))) by ring.
  replace ((U + c - U) * (0 - U) + (0 - U) * (U - c - U) - (U + c - U) * (U - c - U) - (0 - U) ^ 2) with ((c - U) * (c + U)) by ring.
  replace ((U + c - U) * (0 - U) - (0 - U) * (U - c - U) - (U + c - U) * (U - c - U) + (U - c - U) ^ 2) with (2 * (c * (c - U))) by ring.
  fin.
Qed.
Lemma rows_super_neg : U < - c -> good_rows 0 (U - c) (U + c).
Proof.
  intros H. rows. rewrite sgn_0.
  replace (- (0 - U) * (U - c - U) + (U - c - U) * (U + c - U) - (0 - U) * (U + c - U) + (0 - U) ^ 2) with (- ((c - U) * (c + U))) by ring.
  replace ((0 - U) * (U - c - U) + (U - c - U) * (U + c - U) - (0 - U) * (U + c - U) - (U - c - U) ^ 2) with (- 2 * (c * (c - U))) by ring.
  replace ((0 - U) * (U - c - U) - (U - c - U) * (U + c - U) - (0 - U) * (U + c - U) + (U + c - U) ^ 2) with (2 * (c * (c + U))) by ring.
  fin.
Qed.
End Star.
