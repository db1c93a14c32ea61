(** * Proofs_sw9: still water. *)
From Coq Require Import Reals Lra Psatz.
From Verif Require Import Py PyLemmas Model_part Model_conn Model_geom Spec_geom Model_interp Model_fvm Spec_fvm Model_sw Spec_sw Proofs_sw1 Proofs_sw2 Proofs_sw3 Proofs_sw4.
Open Scope R_scope.

Section Still.
Context (g m : R) (n : pt) (Hg : 0 < g) (Hm : measures n m).
Lemma sgn_big x : 1 / 10000000000 <= x -> sgn x = 1.
Proof. intros H. unfold sgn. rewrite Rabs_pos_eq by lra. destruct (Rlt_dec x (1 / 10000000000)); [lra|]. field. lra. Qed.
Lemma still_flux l r : wet l -> wet r -> q_hu l = 0 -> q_hv l = 0 -> q_hu r = 0 -> q_hv r = 0 -> 1 / 10000000000 <= celerity g l r ->
  exists F, srnh_scheme l r n m g = Some F /\ q_h F = celerity g l r * m * ((q_h l + q_Z l) - (q_h r + q_Z r)) / 2.
Proof.
  intros Hl Hr A1 A2 B1 B2 BC. assert (Cp := c_pos g l r Hg Hl Hr). set (c := celerity g l r) in *. destruct Hm as (M0 & M2).
  assert (R0 : roe_mean l r 0 0 = 0) by (unfold roe_mean, Rdiv; ring).
  assert (EU : roe_speed l r n m = 0) by (unfold roe_speed; rewrite A1, A2, B1, B2, R0; unfold Rdiv; ring).
  rewrite (flux_star g m l r n Hg Hm Hl Hr). 2:{ rewrite EU. fold c. intros E. assert (0 < c ^ 2) by (apply pow_lt; exact Cp). lra. }
  assert (SH : forall z, st_h 0 c (q_h r - q_h l) (z - z) (q_Z r - q_Z l) = 0).
  { intros z. unfold st_h. rewrite Rplus_0_l, Rminus_0_l, sgn_opp, !Rminus_eq_0. field. lra. }
  assert (SU : forall z, st_u 0 c (q_h r - q_h l) (z - z) (q_Z r - q_Z l) = c * ((q_h r + q_Z r) - (q_h l + q_Z l))).
  { intros z. unfold st_u. rewrite Rplus_0_l, Rminus_0_l, sgn_opp, (sgn_big c BC), !Rminus_eq_0. field. lra. }
  set (qn := - (c * ((q_h r + q_Z r) - (q_h l + q_Z l))) / 2).
  assert (E : q_h (star g l r n m) = (q_h l + q_h r) / 2 /\ q_hu (star g l r n m) = qn * px n / m /\ q_hv (star g l r n m) = qn * py n / m).
  { unfold star. cbv zeta. cbn [q_h q_hu q_hv]. rewrite EU, A1, A2, B1, B2, R0. fold c. unfold st_v. rewrite SH, SU, sgn_0. unfold qn. repeat split; field; lra. }
  destruct E as (E1 & E2 & E3). rewrite E1. unfold wet in *. destruct (Req_EM_T _ 0) as [Z|Z]; [lra|]. eexists. split; [reflexivity|]. unfold physical_flux, discharge. cbn [q_h]. rewrite E2, E3.
  transitivity (qn * (px n ^ 2 + py n ^ 2) / m); [field; lra|]. rewrite <- M2. unfold qn. field. lra.
Qed.
End Still.
