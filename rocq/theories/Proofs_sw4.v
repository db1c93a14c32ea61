(** * Proofs_sw4: properties of the face flux. *)
From Coq Require Import Reals Lra Psatz Ratan Rtrigo1.
From Verif Require Import Py PyLemmas Model_part Model_conn Model_geom Spec_geom Model_interp Model_fvm Spec_fvm Model_sw Spec_sw Proofs_sw1 Proofs_sw2 Proofs_sw3.
Open Scope R_scope.

Lemma q5_ext a b : q_h a = q_h b -> q_hu a = q_hu b -> q_hv a = q_hv b -> q_hc a = q_hc b -> q_Z a = q_Z b -> a = b.
Proof. destruct a, b. cbn. intros -> -> -> -> ->. reflexivity. Qed.
Lemma roe_mean_same w a : wet w -> roe_mean w w a a = a / q_h w.
Proof. intros H. unfold roe_mean, wet in *. assert (0 < sqrt (q_h w)) by (apply sqrt_lt_R0; assumption). field. split; lra. Qed.
Lemma roe_mean_sym l r a b : roe_mean l r a b = roe_mean r l b a.
Proof. unfold roe_mean. rewrite (Rplus_comm (sqrt (q_h l) * _)), (Rplus_comm (sqrt (q_h l))). reflexivity. Qed.
Lemma roe_mean_opp l r a b : roe_mean l r (- a) (- b) = - roe_mean l r a b.
Proof. unfold roe_mean, Rdiv. ring. Qed.
Lemma roe_mean_lin l r x y a b a' b' : roe_mean l r (x * a + y * a') (x * b + y * b') = x * roe_mean l r a b + y * roe_mean l r a' b'.
Proof. unfold roe_mean, Rdiv. ring. Qed.
Lemma celerity_sym g l r : celerity g l r = celerity g r l.
Proof. unfold celerity. rewrite (Rplus_comm (q_h l)). reflexivity. Qed.

Section Flux.
Context (g m : R) (n : pt) (Hg : 0 < g) (Hm : measures n m).

(** equal states *)
Lemma same_flux w : wet w -> ~ critical g w w n m -> srnh_scheme w w n m g = Some (physical_flux g w n).
Proof.
  intros Hw NC. pose proof (critical_sq g m w w n Hg Hw Hw) as CQ. rewrite (flux_star g m w w n Hg Hm Hw Hw) by (intros E; apply NC, CQ; exact E).
  destruct Hm as (M0 & M2).
  assert (E : q_h (star g w w n m) = q_h w /\ q_hu (star g w w n m) = q_hu w /\ q_hv (star g w w n m) = q_hv w /\ q_hc (star g w w n m) = q_hc w).
  { unfold star. cbv zeta. cbn [q_h q_hu q_hv q_hc]. unfold st_u, st_v, st_k, st_h. rewrite !Rminus_eq_0, !Rmult_0_r, !Rplus_0_r, !Rmult_0_r. unfold Rminus at 1. unfold Rdiv at 2. rewrite !Rmult_0_l.
    assert (MM : forall x, x / m ^ 2 * (px n ^ 2 + py n ^ 2) = x) by (intros x; rewrite <- M2; field; lra).
    repeat split; try lra; [etransitivity; [|apply (MM (q_hu w))] | etransitivity; [|apply (MM (q_hv w))]]; field; lra. }
  destruct E as (E1 & E2 & E3 & E4). rewrite E1. destruct (Req_EM_T (q_h w) 0) as [Z|Z]; [unfold wet in Hw; lra|]. f_equal. unfold physical_flux, discharge. rewrite E1, E2, E3, E4. reflexivity.
Qed.

Lemma star_swap l r n' : wet l -> wet r -> ~ critical g l r n m -> px n' = - px n -> py n' = - py n -> star g r l n' m = star g l r n m /\ (critical g r l n' m <-> critical g l r n m).
Proof.
  intros Hl Hr NC Ex Ey. destruct Hm as (M0 & M2).
  assert (EU : roe_speed r l n' m = - roe_speed l r n m). { unfold roe_speed. rewrite Ex, Ey, (roe_mean_sym r l (q_hu r)), (roe_mean_sym r l (q_hv r)). field. lra. }
  split.
  - assert (CQ := critical_sq g m l r n Hg Hl Hr). assert (Cp := c_pos g l r Hg Hl Hr).
    assert (NU : roe_speed l r n m ^ 2 <> celerity g l r ^ 2) by (intros E; apply NC, CQ; exact E).
    unfold star. cbv zeta. rewrite EU, (celerity_sym g r l). set (U := roe_speed l r n m) in *. set (c := celerity g l r) in *.
    rewrite (roe_mean_sym r l (q_hu r)), (roe_mean_sym r l (q_hv r)), (roe_mean_sym r l (q_hc r)), Ex, Ey.
    set (a1 := roe_mean l r (q_hv l) (q_hv r)). set (a2 := roe_mean l r (q_hu l) (q_hu r)). set (a3 := roe_mean l r (q_hc l) (q_hc r)).
    assert (c + U <> 0) by (intros E; apply NU; replace c with (- U) by lra; ring). assert (c - U <> 0) by (intros E; apply NU; replace c with U by lra; ring).
    unfold st_u, st_v, st_k, st_h. replace (- U + c) with (- (U - c)) by ring. replace (- U - c) with (- (U + c)) by ring. rewrite !sgn_opp.
    apply q5_ext; cbn [q_h q_hu q_hv q_hc q_Z]; try reflexivity; field; repeat split; lra.
  - unfold critical. rewrite EU, Rabs_Ropp, celerity_sym. reflexivity.
Qed.
Lemma swap_flux l r n' : wet l -> wet r -> px n' = - px n -> py n' = - py n -> srnh_scheme r l n' m g = oopp5 (srnh_scheme l r n m g).
Proof.
  intros Hl Hr Ex Ey. assert (Hm' : measures n' m). { destruct Hm as (M0 & M2). split; [exact M0|]. rewrite Ex, Ey, M2. ring. }
  assert (CQ := critical_sq g m l r n Hg Hl Hr). assert (CQ' := critical_sq g m r l n' Hg Hr Hl).
  assert (EU : roe_speed r l n' m = - roe_speed l r n m). { destruct Hm. unfold roe_speed. rewrite Ex, Ey, (roe_mean_sym r l (q_hu r)), (roe_mean_sym r l (q_hv r)). field. lra. }
  destruct (Req_dec (roe_speed l r n m ^ 2) (celerity g l r ^ 2)) as [E|E].
  - rewrite (flux_none g m l r n Hg Hl Hr E). rewrite (flux_none g m r l n' Hg Hr Hl); [reflexivity|]. rewrite EU, celerity_sym. rewrite <- E. ring.
  - assert (NC : ~ critical g l r n m) by (intros D; apply E, CQ; exact D). destruct (star_swap l r n' Hl Hr NC Ex Ey) as (ES & _).
    rewrite (flux_star g m l r n Hg Hm Hl Hr E), (flux_star g m r l n' Hg Hm' Hr Hl). 2:{ rewrite EU, (celerity_sym g r l). intros D. apply E. rewrite <- D. ring. }
    rewrite ES. destruct (Req_EM_T _ 0) as [Z|Z]; [reflexivity|]. cbn [oopp5]. f_equal. unfold physical_flux, discharge, q5_opp. cbn [q_h q_hu q_hv q_hc q_Z]. rewrite Ex, Ey.
    f_equal; field; exact Z.
Qed.

(** rotations *)
Lemma turn_flux co si l r : co ^ 2 + si ^ 2 = 1 -> wet l -> wet r -> srnh_scheme (turn5 co si l) (turn5 co si r) (turn_pt co si n) m g = option_map (turn5 co si) (srnh_scheme l r n m g).
Proof.
  intros H1 Hl Hr. destruct Hm as (M0 & M2).
  assert (Hm' : measures (turn_pt co si n) m). { split; [exact M0|]. unfold turn_pt. cbn [px py]. rewrite M2. transitivity ((co ^ 2 + si ^ 2) * (px n ^ 2 + py n ^ 2)); [rewrite H1|]; ring. }
  assert (Hl' : wet (turn5 co si l)) by exact Hl. assert (Hr' : wet (turn5 co si r)) by exact Hr.
  assert (RM : forall a b, roe_mean (turn5 co si l) (turn5 co si r) a b = roe_mean l r a b) by reflexivity.
  assert (Edot : forall a b, (co * a - si * b) * (co * px n - si * py n) + (si * a + co * b) * (si * px n + co * py n) = a * px n + b * py n).
  { intros a b. transitivity ((co ^ 2 + si ^ 2) * (a * px n + b * py n)); [ring | rewrite H1; ring]. }
  assert (Ecr : forall a b, (si * a + co * b) * (co * px n - si * py n) - (co * a - si * b) * (si * px n + co * py n) = b * px n - a * py n).
  { intros a b. transitivity ((co ^ 2 + si ^ 2) * (b * px n - a * py n)); [ring | rewrite H1; ring]. }
  assert (R1 : roe_mean l r (co * q_hu l - si * q_hv l) (co * q_hu r - si * q_hv r) = co * roe_mean l r (q_hu l) (q_hu r) - si * roe_mean l r (q_hv l) (q_hv r)).
  { transitivity (roe_mean l r (co * q_hu l + (- si) * q_hv l) (co * q_hu r + (- si) * q_hv r)); [f_equal; ring | rewrite roe_mean_lin; ring]. }
  assert (R2 : roe_mean l r (si * q_hu l + co * q_hv l) (si * q_hu r + co * q_hv r) = si * roe_mean l r (q_hu l) (q_hu r) + co * roe_mean l r (q_hv l) (q_hv r)) by apply roe_mean_lin.
  assert (EU : roe_speed (turn5 co si l) (turn5 co si r) (turn_pt co si n) m = roe_speed l r n m).
  { unfold roe_speed. rewrite !RM. unfold turn5, turn_pt. cbn [q_hu q_hv px py]. rewrite R1, R2, Edot. reflexivity. }
  assert (EC : celerity g (turn5 co si l) (turn5 co si r) = celerity g l r) by reflexivity.
  destruct (Req_dec (roe_speed l r n m ^ 2) (celerity g l r ^ 2)) as [E|E].
  - rewrite (flux_none g m l r n Hg Hl Hr E). rewrite (flux_none g m _ _ (turn_pt co si n) Hg Hl' Hr'); [reflexivity|]. rewrite EU, EC. exact E.
  - rewrite (flux_star g m l r n Hg Hm Hl Hr E), (flux_star g m _ _ _ Hg Hm' Hl' Hr'); [|rewrite EU, EC; exact E].
    assert (ES : star g (turn5 co si l) (turn5 co si r) (turn_pt co si n) m = turn5 co si (star g l r n m)).
    { unfold star. cbv zeta. rewrite EU, EC, !RM. unfold turn5, turn_pt. cbn [q_h q_hu q_hv q_hc q_Z px py]. rewrite R1, R2, !Edot, !Ecr.
      apply q5_ext; cbn [q_h q_hu q_hv q_hc q_Z]; try reflexivity; field; lra. }
    rewrite ES. change (q_h (turn5 co si (star g l r n m))) with (q_h (star g l r n m)). destruct (Req_EM_T _ 0) as [Z|Z]; [reflexivity|]. cbn [option_map]. f_equal.
    unfold physical_flux, discharge, turn5, turn_pt. cbn [q_h q_hu q_hv q_hc q_Z px py]. rewrite Edot. f_equal; field; exact Z.
Qed.

(** supercritical flow *)
Lemma super_flux l r : wet l -> wet r -> q_Z l = q_Z r -> roe_speed l r n m - celerity g l r >= 1 / 10000000000 -> srnh_scheme l r n m g = Some (physical_flux g l n).
Proof.
  intros Hl Hr EZ HS. assert (Cp := c_pos g l r Hg Hl Hr). set (U := roe_speed l r n m) in *. set (c := celerity g l r) in *.
  rewrite (flux_star g m l r n Hg Hm Hl Hr). 2:{ fold U c. intros E. assert (c * c < U * U) by (apply Rmult_gt_0_lt_compat; lra). nra. }
  destruct Hm as (M0 & M2).
  assert (E : q_h (star g l r n m) = q_h l /\ q_hu (star g l r n m) = q_hu l /\ q_hv (star g l r n m) = q_hv l /\ q_hc (star g l r n m) = q_hc l).
  { unfold star. cbv zeta. cbn [q_h q_hu q_hv q_hc]. fold U c. unfold st_u, st_v, st_k, st_h. rewrite EZ, !Rminus_eq_0, !Rmult_0_r, !Rplus_0_r.
    rewrite (sgn_pos (U + c)), (sgn_pos (U - c)), (sgn_pos U) by lra.
    assert (MM : forall x, x / m ^ 2 * (px n ^ 2 + py n ^ 2) = x) by (intros x; rewrite <- M2; field; lra).
    repeat split; try (field; lra); [etransitivity; [|apply (MM (q_hu l))] | etransitivity; [|apply (MM (q_hv l))]]; field; lra. }
  destruct E as (E1 & E2 & E3 & E4). rewrite E1. destruct (Req_EM_T (q_h l) 0) as [Z|Z]; [unfold wet in Hl; lra|]. f_equal. unfold physical_flux, discharge. rewrite E1, E2, E3, E4. reflexivity.
Qed.

(** the depth of the intermediate state, for statements *)
Lemma flux_cases l r : wet l -> wet r -> srnh_scheme l r n m g = None \/ q_h (star g l r n m) <> 0 /\ roe_speed l r n m ^ 2 <> celerity g l r ^ 2 /\ srnh_scheme l r n m g = Some (physical_flux g (star g l r n m) n).
Proof.
  intros Hl Hr. destruct (Req_dec (roe_speed l r n m ^ 2) (celerity g l r ^ 2)) as [E|E]; [left; apply flux_none; assumption|].
  rewrite (flux_star g m l r n Hg Hm Hl Hr E). destruct (Req_EM_T _ 0) as [Z|Z]; [left; reflexivity | right; split; [exact Z | split; [exact E | reflexivity]]].
Qed.

(** uniform concentration *)
Lemma tracer_flux l r k F : wet l -> wet r -> q_hc l = k * q_h l -> q_hc r = k * q_h r -> srnh_scheme l r n m g = Some F -> q_hc F = k * q_h F.
Proof.
  intros Hl Hr El Er. destruct (flux_cases l r Hl Hr) as [E|(Z & NC & E)]; rewrite E; [discriminate|]. intros [= <-]. unfold physical_flux. cbn [q_hc q_h].
  assert (EK : q_hc (star g l r n m) = k * q_h (star g l r n m)).
  { unfold star. cbv zeta. cbn [q_hc q_h]. unfold st_k. replace (roe_mean l r (q_hc l) (q_hc r)) with k. 2:{ rewrite El, Er. unfold roe_mean. unfold wet in *. assert (0 < sqrt (q_h l)) by (apply sqrt_lt_R0; assumption). assert (0 < sqrt (q_h r)) by (apply sqrt_lt_R0; assumption). field. repeat split; lra. }
    set (s := st_h _ _ _ _ _). rewrite El, Er. field. }
  rewrite EK. field. exact Z.
Qed.

(** the bottom flux is zero *)
Lemma bottom_flux l r F : wet l -> wet r -> srnh_scheme l r n m g = Some F -> q_Z F = 0.
Proof. intros Hl Hr. destruct (flux_cases l r Hl Hr) as [E|(Z & NC & E)]; rewrite E; [discriminate|]. intros [= <-]. reflexivity. Qed.

(** a wall: the ghost has the same depth, bottom and concentration and the opposite normal velocity *)
Lemma wall_flux l r F : wet l -> q_h r = q_h l -> q_Z r = q_Z l -> discharge r n = - discharge l n -> srnh_scheme l r n m g = Some F -> q_h F = 0 /\ q_hc F = 0 /\ exists p, q_hu F = p * px n /\ q_hv F = p * py n.
Proof.
  intros Hl Eh Ez Ed. assert (Hr : wet r) by (unfold wet in *; lra). destruct (flux_cases l r Hl Hr) as [E|(Z & NC & E)]; rewrite E; [discriminate|]. intros [= <-].
  destruct Hm as (M0 & M2). assert (Cp := c_pos g l r Hg Hl Hr).
  assert (EU : roe_speed l r n m = 0).
  { unfold roe_speed, roe_mean. rewrite Eh. unfold discharge in Ed. unfold wet in *. assert (0 < sqrt (q_h l)) by (apply sqrt_lt_R0; assumption).
    transitivity ((q_hu l * px n + q_hv l * py n + (q_hu r * px n + q_hv r * py n)) / (2 * q_h l * m)); [field; repeat split; lra | rewrite Ed; field; split; lra]. }
  assert (ED : discharge (star g l r n m) n = 0).
  { unfold star, discharge. cbv zeta. cbn [q_hu q_hv]. rewrite EU, Eh, Ez. unfold discharge in Ed. rewrite Ed. set (c := celerity g l r) in *.
    set (qt := _ - st_v _ _ _ _ _ _ _ / 2). unfold st_u. rewrite !Rminus_eq_0, Rplus_0_l, Rminus_0_l, sgn_opp. field. split; lra. }
  unfold physical_flux. cbn [q_h q_hc q_hu q_hv]. rewrite ED. split; [reflexivity|]. split; [ring|]. exists (g * q_h (star g l r n m) ^ 2 / 2). split; ring.
Qed.

(** lake at rest *)
Lemma rest_flux l r : wet l -> wet r -> q_hu l = 0 -> q_hv l = 0 -> q_hu r = 0 -> q_hv r = 0 -> q_h l + q_Z l = q_h r + q_Z r ->
  srnh_scheme l r n m g = Some {| q_h := 0; q_hu := g * ((q_h l + q_h r) / 2) ^ 2 / 2 * px n; q_hv := g * ((q_h l + q_h r) / 2) ^ 2 / 2 * py n; q_hc := 0; q_Z := 0 |}.
Proof.
  intros Hl Hr A1 A2 B1 B2 EZ. assert (Cp := c_pos g l r Hg Hl Hr). set (c := celerity g l r) in *. destruct Hm as (M0 & M2).
  assert (R0 : roe_mean l r 0 0 = 0) by (unfold roe_mean, Rdiv; ring).
  assert (EU : roe_speed l r n m = 0) by (unfold roe_speed; rewrite A1, A2, B1, B2, R0; unfold Rdiv; ring).
  rewrite (flux_star g m l r n Hg Hm Hl Hr). 2:{ rewrite EU. fold c. intros E. assert (0 < c ^ 2) by (apply pow_lt; exact Cp). lra. }
  assert (SH : forall z, st_h 0 c (q_h r - q_h l) (z - z) (q_Z r - q_Z l) = 0).
  { intros z. unfold st_h. rewrite Rplus_0_l, Rminus_0_l, sgn_opp, !Rminus_eq_0. replace (q_Z r) with (q_h l + q_Z l - q_h r) by lra. field. lra. }
  assert (SU : forall z, st_u 0 c (q_h r - q_h l) (z - z) (q_Z r - q_Z l) = 0).
  { intros z. unfold st_u. rewrite Rplus_0_l, Rminus_0_l, sgn_opp, !Rminus_eq_0. replace (q_Z r) with (q_h l + q_Z l - q_h r) by lra. field. lra. }
  assert (E : q_h (star g l r n m) = (q_h l + q_h r) / 2 /\ q_hu (star g l r n m) = 0 /\ q_hv (star g l r n m) = 0).
  { unfold star. cbv zeta. cbn [q_h q_hu q_hv]. rewrite EU, A1, A2, B1, B2, R0. fold c. unfold st_v. rewrite SH, SU, sgn_0. repeat split; field; lra. }
  destruct E as (E1 & E2 & E3). rewrite E1. unfold wet in *. destruct (Req_EM_T _ 0) as [Z|Z]; [lra|]. f_equal. unfold physical_flux, discharge. rewrite E1, E2, E3. f_equal; field; lra.
Qed.

(** only the difference of the bottoms matters *)
Lemma datum_flux l r l' r' : wet l -> wet r -> (q_h l' = q_h l /\ q_hu l' = q_hu l /\ q_hv l' = q_hv l /\ q_hc l' = q_hc l) -> (q_h r' = q_h r /\ q_hu r' = q_hu r /\ q_hv r' = q_hv r /\ q_hc r' = q_hc r) ->
  q_Z r' - q_Z l' = q_Z r - q_Z l -> srnh_scheme l' r' n m g = srnh_scheme l r n m g.
Proof.
  intros Hl Hr (A1 & A2 & A3 & A4) (B1 & B2 & B3 & B4) EZ. destruct l as [a1 a2 a3 a4 a5], r as [b1 b2 b3 b4 b5], l' as [c1 c2 c3 c4 c5], r' as [d1 d2 d3 d4 d5]. cbn in *. subst. unfold srnh_scheme. cbv zeta. cbn [q_h q_hu q_hv q_hc q_Z]. rewrite EZ. reflexivity.
Qed.
End Flux.
