(** * Examples_streamer: concrete cases and refutations for C47-C49, C61, C62. *)
From Coq Require Import String Reals Rpower Lra ZifyBool.
From Verif Require Import Py PyLemmas Model_part Spec_part Model_conn Spec_conn Model_geom Spec_geom Model_interp Spec_interp Model_fvm Spec_fvm Model_streamer Spec_streamer Proofs_interp1 Proofs_fvm1 Proofs_fvm2 Proofs_streamer Proofs_streamer2 Properties_part Properties_streamer Examples_fvm.
Open Scope Z_scope.

Lemma vlen_x x : vlen (P3 x 0 0) = Rabs x.
Proof. unfold vlen, vdot. cbn [px py pz]. replace (x * x + 0 * 0 + 0 * 0)%R with (Rsqr x) by (unfold Rsqr; ring). apply sqrt_Rsqr_abs. Qed.

(** a larger field can give a smaller speed: the law jumps down at E/N = 1e-16 *)
Theorem C47_speed_increasing_refuted : exists e e' old, (vlen e < vlen e')%R /\ (vlen (face_velocity e' old) < vlen (face_velocity e old))%R.
Proof.
  exists (P3 2500 0 0), (P3 2501 0 0), vzero. rewrite !face_velocity_speed, !vlen_x, !Rabs_pos_eq by lra. split; [lra|]. unfold drift_speed, N_gas.
  repeat match goal with |- context[Rle_dec ?a ?b] => destruct (Rle_dec a b); try (exfalso; lra) end. lra.
Qed.
(** the velocity of a cell can be non-zero although its field is zero *)
Definition se : list pt := [P3 200000 0 0; P3 (-100000) 0 0; P3 (-100000) 0 0].
Definition sn : list pt := [P3 0 (-1) 0; P3 1 1 0; P3 (-1) 0 0].
Lemma se_rows : face_rows 2 (zlen se) [[0; 1; 2]].
Proof. intros c Hc. assert (c = 0) as -> by (cbn in Hc; lia). split; [reflexivity|]. intros f Hf. cbn in Hf. cbn. lia. Qed.
Lemma se_face x old : (100000 <= Rabs x)%R -> face_velocity (P3 x 0 0) old = P3 (- ((7400000000000000000000 * (Rabs x / N_gas) + 7100000) / Rabs x) * x) 0 0.
Proof.
  intros H. assert (NZ : P3 x 0 0 <> vzero) by (intros E; injection E as E; subst x; rewrite Rabs_R0 in H; lra). rewrite face_velocity_law by exact NZ. rewrite vlen_x. unfold vscal. cbn [px py pz]. unfold drift_speed.
  assert (Q : (2 / 1000000000000000 < Rabs x / N_gas)%R) by (unfold N_gas; lra).
  repeat match goal with |- context[Rle_dec ?a ?b] => destruct (Rle_dec a b); try (exfalso; lra) end. f_equal; ring.
Qed.
Lemma se_velocity : exists vf vc Ec, compute_velocity se [vzero; vzero; vzero] [[0; 1; 2]] 2 = Ok (vf, vc, Ec) /\ vf = [P3 (-66300000) 0 0; P3 36700000 0 0; P3 36700000 0 0] /\ vc = [P3 (7100000 / 3) 0 0] /\ Ec = [vzero].
Proof.
  unfold compute_velocity. change (range (zlen [vzero; vzero; vzero])) with [0; 1; 2]. unfold mapM at 1. change (get se 0) with (Ok (P3 200000 0 0)). change (get se 1) with (Ok (P3 (-100000) 0 0)). change (get se 2) with (Ok (P3 (-100000) 0 0)). change (get [vzero; vzero; vzero] 0) with (Ok vzero). change (get [vzero; vzero; vzero] 1) with (Ok vzero). change (get [vzero; vzero; vzero] 2) with (Ok vzero). cbn [bind].
  assert (A1 : Rabs 200000 = 200000%R) by (apply Rabs_pos_eq; lra). assert (A2 : Rabs (-100000) = 100000%R) by (rewrite Rabs_left; lra).
  rewrite !se_face by (rewrite ?A1, ?A2; lra). rewrite A1, A2.
  replace (P3 (- ((7400000000000000000000 * (200000 / N_gas) + 7100000) / 200000) * 200000) 0 0) with (P3 (-66300000) 0 0) by (unfold N_gas; f_equal; lra).
  replace (P3 (- ((7400000000000000000000 * (100000 / N_gas) + 7100000) / 100000) * -100000) 0 0) with (P3 36700000 0 0) by (unfold N_gas; f_equal; lra).
  eexists _, _, _. split; [reflexivity|]. split; [reflexivity|]. split; (apply f_equal2; [|reflexivity]); unfold vzero; f_equal; cbn [px py pz padd p0]; change (2 + 1)%Z with 3%Z; lra.
Qed.
Theorem C47_cell_antiparallel_refuted : exists Ef old faceid vf vc Ec, zlen old = zlen Ef /\ face_rows 2 (zlen Ef) faceid /\ compute_velocity Ef old faceid 2 = Ok (vf, vc, Ec) /\ nthZ vzero Ec 0 = vzero /\ nthZ vzero vc 0 <> vzero.
Proof.
  destruct se_velocity as (vf & vc & Ec & E & _ & E1 & E2). exists se, [vzero; vzero; vzero], [[0; 1; 2]], vf, vc, Ec. split; [reflexivity|]. split; [exact se_rows|]. split; [exact E|]. subst. split; [reflexivity|].
  intros Q. change (nthZ vzero [P3 (7100000 / 3) 0 0] 0) with (P3 (7100000 / 3) 0 0) in Q. injection Q. lra.
Qed.
(** C61: such a cell does not restrict the time step (its quotient is not a number), which is then far beyond the CFL bound *)
Theorem C61_zero_field_refuted : exists Ef old faceid normal mesure volume vf vc Ec, face_rows 2 (zlen Ef) faceid /\ compute_velocity Ef old faceid 2 = Ok (vf, vc, Ec) /\ wf_timestep 2 vc normal mesure volume faceid /\
  time_step_streamer vc Ec 1 normal mesure volume faceid 2 = Ok (Some 1000000%R) /\ (1 * nthZ 0 volume 0 < 1000000 * rsum (map (fun f => Rabs (vdot (nthZ vzero vc 0) (nthZ vzero normal f))) (nthZ [] faceid 0)))%R.
Proof.
  destruct se_velocity as (vf & vc & Ec & E & _ & E1 & E2). exists se, [vzero; vzero; vzero], [[0; 1; 2]], sn, [1; sqrt 2; 1]%R, [1/2]%R, vf, vc, Ec. subst vc Ec.
  assert (WT : wf_timestep 2 [P3 (7100000 / 3) 0 0] sn [1; sqrt 2; 1]%R [1/2]%R [[0; 1; 2]]).
  { constructor; [left; reflexivity | repeat split | |].
    - intros i Hi. assert (i = 0) as -> by (cbn in Hi; lia). rz. lra.
    - intros i Hi. assert (i = 0) as -> by (cbn in Hi; lia). split; [reflexivity|]. intros f Hf. cbn in Hf. destruct Hf as [<- |[<- |[<- |[]]]]; (split; [split; [discriminate | reflexivity]|]); rz; try lra; apply sqrt_lt_R0; lra. }
  split; [exact se_rows|]. split; [exact E|]. split; [exact WT|]. split.
  - unfold time_step_streamer. change (range (zlen [[0; 1; 2]])) with [0]. cbn [foldM]. rewrite (lam_ok 2 _ [vzero] sn [1; sqrt 2; 1]%R [1/2]%R [[0; 1; 2]] WT eq_refl 0) by (split; [discriminate | reflexivity]).
    change (nthZ vzero [vzero] 0) with vzero. rewrite vlen_zero. destruct (Req_EM_T 0 0) as [_|N]; [|contradiction]. reflexivity.
  - change (nthZ [] [[0; 1; 2]] 0) with [0; 1; 2]. cbn [map]. rewrite !rsum_cons. unfold rsum. cbn [fold_right].
    change (nthZ vzero [P3 (7100000 / 3) 0 0] 0) with (P3 (7100000 / 3) 0 0). change (nthZ vzero sn 0) with (P3 0 (-1) 0). change (nthZ vzero sn 1) with (P3 1 1 0). change (nthZ vzero sn 2) with (P3 (-1) 0 0). change (nthZ 0%R [1/2]%R 0) with (1/2)%R.
    unfold vdot. cbn [px py pz].
    pose proof (Rabs_pos (7100000 / 3 * 0 + 0 * -1 + 0 * 0)). pose proof (Rle_abs (7100000 / 3 * 1 + 0 * 1 + 0 * 0)). pose proof (Rabs_pos (7100000 / 3 * -1 + 0 * 0 + 0 * 0)). lra.
Qed.

(** the hypotheses hold on the unit square cut in two *)
Definition sx_M : stmodel := {| st_dim := 2; st_X := ex_X; st_L := ex_L; st_vol := [1/2; 1/2]%R; st_order := 1; st_terms := streamer_terms None; st_dt := 1%R |}.
Example C48_example : forall grads Ef Ec vc a b ni, zlen grads = 5 -> zlen Ef = 5 -> zlen Ec = 2 -> zlen vc = 2 -> zlen ni = 2 ->
  exists r ne' ni', update_solution_streamer sx_M (ex_A a b) grads Ef ex_vel Ec vc ni = Ok r /\ r = combine (map Some ne') (map Some ni') /\
  net_charge [1/2; 1/2]%R ne' ni' = (net_charge [1/2; 1/2]%R [a; b] ni + 1 * (rsum (map (electron_diffusion ex_X ex_vel Ef grads) [0; 2; 3; 4]%Z) - rsum (map (fv_flux 2 1 ex_X (ex_A a b) ex_vel) [0; 2; 3; 4]%Z)))%R.
Proof.
  intros grads Ef Ec vc a b ni H1 H2 H3 H4 H5. destruct (C48_charge_balance sx_M (ex_A a b) grads Ef ex_vel Ec vc ni ex_wf ex_wl (ex_wa a b) H1 H2 H3 H4 H5) as (r & ne' & ni' & E & Er & _ & _ & B & _).
  - reflexivity.
  - intros c Hc. two Hc; rz; lra.
  - apply (proj1 (C62_terms None)). exact I.
  - exists r, ne', ni'. split; [exact E|]. split; [exact Er|]. exact B.
Qed.
Example C49_example : exists pa, readmesh_parallel 2 3 ex_cells ex_nodes ex_ghost ex_npart ex_epart = Ok pa /\
  exists arrays, mapM (fun r => rhs_after 3 (rf_loctoglob (file_of empty_file pa r)) ([([7], [5])] ++ [([IZR r], [1])])%R) (range 3) = Ok arrays /\
  reduce_sum 3 arrays = [poisson_rhs 0 1; poisson_rhs 1 1; poisson_rhs 2 1].
Proof.
  destruct ex_run as (pa & E & EL & _). exists pa. split; [exact E|].
  assert (L : forall r, 0 <= r < 3 -> rf_loctoglob (file_of empty_file pa r) = [r]).
  { intros r Hr. unfold file_of. rewrite <- (nthZ_map rf_loctoglob empty_file []) by (rewrite <- (zlen_map rf_loctoglob), EL; cbn; lia). rewrite EL. assert (C : r = 0 \/ r = 1 \/ r = 2) by lia. destruct C as [-> | [-> | ->]]; reflexivity. }
  destruct (C49_rank0_right_hand_side 2 3 ex_cells ex_nodes ex_ghost ex_npart ex_epart pa (fun _ => [([7], [5])]%R) (fun r => [IZR r]) (fun _ => [1%R]) Properties_part.ex_wf ex_contract E) as (arrays & EA & LA & P & _).
  { intros r c Hr Hc. rewrite (L r Hr). destruct Hc as [<- |[<- |[]]]; split; reflexivity. }
  exists arrays. split; [exact EA|]. change (zlen ex_cells) with 3 in LA, P. apply (nthZ_ext 0%R); [rewrite LA; reflexivity|]. intros g Hg. rewrite LA in Hg. specialize (P g 0 Hg). rewrite (L g Hg) in P. specialize (P ltac:(cbn; lia)). change (nthZ 0 [g] 0) with g in P.
  etransitivity; [exact P|]. assert (C : g = 0 \/ g = 1 \/ g = 2) by lia. destruct C as [-> | [-> | ->]]; reflexivity.
Qed.
(** C61: a cell with a field restricts the time step *)
Example C61_example : exists dt, time_step_streamer [P3 (-2) 0 0] [P3 3 0 0] 1 sn [1; sqrt 2; 1]%R [1/2]%R [[0; 1; 2]] 2 = Ok (Some dt) /\ (0 < dt <= 1 / 8)%R.
Proof.
  assert (WT : wf_timestep 2 [P3 (-2) 0 0] sn [1; sqrt 2; 1]%R [1/2]%R [[0; 1; 2]]).
  { constructor; [left; reflexivity | repeat split | |].
    - intros i Hi. assert (i = 0) as -> by (cbn in Hi; lia). rz. lra.
    - intros i Hi. assert (i = 0) as -> by (cbn in Hi; lia). split; [reflexivity|]. intros f Hf. cbn in Hf. destruct Hf as [<- |[<- |[<- |[]]]]; (split; [split; [discriminate | reflexivity]|]); rz; try lra; apply sqrt_lt_R0; lra. }
  destruct (C61_time_step 2 [P3 (-2) 0 0] [P3 3 0 0] sn [1; sqrt 2; 1]%R [1/2]%R [[0; 1; 2]] 1 WT eq_refl ltac:(lra)) as (dt & E & B & H & _). exists dt. split; [exact E|].
  destruct (H 0 ltac:(split; [discriminate | reflexivity])) as (_ & K).
  { intros Q. change (nthZ vzero [P3 3 0 0] 0) with (P3 3 0 0) in Q. injection Q. lra. }
  change (nthZ 0%R [1/2]%R 0) with (1/2)%R in K. split; [lra|].
  assert (S : (4 <= streamer_speed [P3 (-2) 0 0] [P3 3 0 0] sn [1/2] [[0; 1; 2]]%Z 0%Z)%R); [|nra].
  unfold streamer_speed, wave_speed. set (D := electron_diffusivity _ _). assert (HD : (0 <= D)%R) by apply diffusivity_nonneg. change (nthZ [] [[0; 1; 2]] 0) with [0; 1; 2]. cbn [map]. rewrite !rsum_cons. unfold rsum. cbn [fold_right].
  change (nthZ vzero [P3 (-2) 0 0] 0) with (P3 (-2) 0 0). change (nthZ vzero sn 0) with (P3 0 (-1) 0). change (nthZ vzero sn 1) with (P3 1 1 0). change (nthZ vzero sn 2) with (P3 (-1) 0 0). change (nthZ 0%R [1/2]%R 0) with (1/2)%R. unfold vdot. cbn [px py pz].
  pose proof (Rabs_pos (-2 * 0 + 0 * -1 + 0 * 0)). pose proof (Rle_abs (- (-2 * 1 + 0 * 1 + 0 * 0))) as Q1. rewrite Rabs_Ropp in Q1. pose proof (Rle_abs (-2 * -1 + 0 * 0 + 0 * 0)). lra.
Qed.
