(** * Examples_sw: concrete cases for C43-C46 and C55-C59, C60 (model settings), counterexamples. *)
From Coq Require Import Reals Lra Psatz Permutation ZifyBool String.
From Verif Require Import Py PyLemmas Model_part Model_conn Spec_conn Model_geom Spec_geom Model_interp Spec_interp Model_fvm Spec_fvm Proofs_conn1 Proofs_interp1 Proofs_fvm1 Proofs_fvm2 Model_sw Spec_sw
  Proofs_sw2 Proofs_sw3 Proofs_sw4 Proofs_sw5 Proofs_sw6 Proofs_sw7 Proofs_sw8 Properties_sw Examples_fvm.
Open Scope Z_scope.

(** ** A 4 x 3 rectangle cut along its diagonal: faces bottom, left, diagonal, top, right *)
Definition rx_X : fvdata := {| fv_cellid := [[0; -1]; [0; -1]; [0; 1]; [1; -1]; [1; -1]]; fv_name := [3; 1; 0; 4; 2];
  fv_normal := [P3 0 (-4) 0; P3 (-3) 0 0; P3 3 4 0; P3 0 4 0; P3 3 0 0]; fv_centerf := [P3 2 0 0; P3 0 (3/2) 0; P3 2 (3/2) 0; P3 2 3 0; P3 4 (3/2) 0];
  fv_halofid := [0; 0; 0; 0; 0]; fv_centerc := [P3 (4/3) 1 0; P3 (8/3) 2 0]; fv_centerh := []; fv_shift := [vzero; vzero] |}.
Definition rx_L : fvlists := {| ls_inner := [2]; ls_periodic := []; ls_halo := []; ls_boundary := [0; 1; 3; 4] |}.
Definition rx_mes : list R := [4; 3; 5; 4; 3]%R.
Definition rx_vol : list R := [6; 6]%R.
Definition rx_C : swcells := {| cl_nodeid := [[0; 1; 2; 3]; [3; 2; 1; 3]]; cl_faceid := [[0; 1; 2]; [2; 3; 4]]; cl_cellfid := [[-1; -1; 1]; [0; -1; -1]];
  cl_nf := [[P3 0 (-4) 0; P3 (-3) 0 0; P3 3 4 0]; [P3 (-3) (-4) 0; P3 0 4 0; P3 3 0 0]]; cl_vertex := [P3 0 0 0; P3 4 0 0; P3 0 3 0; P3 4 3 0] |}.
(** ghosts: nonslip walls *)
Definition rx_data (w : list q5) : swdata := let a := reversed (nthZ q5_zero w 0) in let b := reversed (nthZ q5_zero w 1) in
  {| sw_c := w; sw_ghost := [a; a; q5_zero; b; b]; sw_halo := []; sw_gradh := [vzero; vzero]; sw_gradhh := []; sw_gradc := [vzero; vzero]; sw_gradch := []; sw_psi := [1; 1]%R; sw_psih := [] |}.
Definition rx_coef (D mann fc : R) : swcoef := {| co_terms := ["source"; "dissipation"; "coriolis"; "friction"; "convective"]%string; co_Dx := D; co_Dy := D; co_Mann := mann; co_fc := fc |}.
Definition rx_M (D mann fc dt : R) : swmodel := {| sm_X := rx_X; sm_L := rx_L; sm_mesure := rx_mes; sm_vol := rx_vol; sm_cells := rx_C; sm_order := 1; sm_coef := rx_coef D mann fc; sm_dt := dt |}.
(** a step of height 1 under a lake of level 2, with tracer *)
Definition rx_lake (s t : R) : list q5 := [{| q_h := 2; q_hu := 0; q_hv := 0; q_hc := s; q_Z := 0 |}; {| q_h := 1; q_hu := 0; q_hv := 0; q_hc := t; q_Z := 1 |}]%R.
Definition rx_fg (A : swdata) : list pt := repeat vzero 5.

Example rx_wf : wf_fvdata 2 rx_X.
Proof. constructor; [left; reflexivity | cbn; lia|]. intros f Hf. five Hf; (split; [reflexivity|]); (split; [split; [discriminate | reflexivity]|]); (split; [intros [E|E]; (discriminate E || (split; [discriminate | reflexivity])) | intros E; discriminate E]). Qed.
Example rx_wl : wf_lists 2 rx_X rx_L.
Proof. unfold wf_lists. cbn [ls_inner ls_periodic ls_halo ls_boundary rx_L]. split; [|split; [|split]]; intros f Hf; cbn in Hf; repeat (destruct Hf as [<- | Hf]); try contradiction; repeat split; discriminate. Qed.
Example rx_wd w : zlen w = 2 -> wf_swdata rx_X rx_mes (rx_data w).
Proof. intros H. constructor; repeat split. exact H. Qed.
Example rx_mesures f : In f (sw_faces rx_L) -> measures (nthZ vzero (fv_normal rx_X) f) (nthZ 0%R rx_mes f).
Proof. intros Hf. cbn in Hf. unfold measures. repeat (destruct Hf as [<- | Hf]); try contradiction; rz; lra. Qed.
Example rx_vols : zlen rx_vol = 2 /\ forall c, 0 <= c < 2 -> (0 < nthZ 0%R rx_vol c)%R.
Proof. split; [reflexivity|]. intros c Hc. two Hc; rz; lra. Qed.
Ltac three H := match type of H with 0 <= ?f < _ => assert (f = 0 \/ f = 1 \/ f = 2) as Hcase by (cbn in H; lia); destruct Hcase as [-> | [-> | ->]] end.
Example rx_wc : wf_swcells rx_X rx_L rx_C.
Proof.
  split; [reflexivity|]. split; [reflexivity|]. split; [reflexivity|]. split; [reflexivity|]. intros c Hc. two Hc; constructor.
  - split; [reflexivity|]. lazy. eapply Permutation_trans; [|apply perm_swap]. eapply Permutation_trans; [apply perm_skip, perm_swap|]. apply Permutation_refl.
  - intros f Hf E. cbn in Hf. repeat (destruct Hf as [<- | Hf]); try contradiction; lazy in E; lazy; discriminate.
  - split; [reflexivity|]. split; [discriminate | reflexivity].
  - split; reflexivity.
  - intros j Hj. three Hj; cbv zeta; (split; intros E; lazy in E; try (exfalso; apply E; reflexivity); try discriminate E; rz; split; try reflexivity; ring).
  - intros j Hj. three Hj; cbv zeta; intros E; lazy in E; try discriminate E; reflexivity.
  - rz. repeat split; lra.
  - split; [reflexivity|]. lazy. apply Permutation_refl.
  - intros f Hf E. cbn in Hf. repeat (destruct Hf as [<- | Hf]); try contradiction; lazy in E; lazy; discriminate.
  - split; [reflexivity|]. split; [discriminate | reflexivity].
  - split; reflexivity.
  - intros j Hj. three Hj; cbv zeta; (split; intros E; lazy in E; try (exfalso; apply E; reflexivity); try discriminate E; rz; split; try reflexivity; ring).
  - intros j Hj. three Hj; cbv zeta; intros E; lazy in E; try discriminate E; reflexivity.
  - rz. repeat split; lra.
Qed.
Example rx_lake_rest s t x : In x (rx_lake s t) -> at_rest 2 x.
Proof. intros Hx. unfold at_rest. cbn in Hx. destruct Hx as [<- | [<- | Hx]]; [| |contradiction]; cbn; repeat split; lra. Qed.
Example rx_is_lake s t : lake 2 rx_L (rx_data (rx_lake s t)).
Proof.
  split; [exact (rx_lake_rest s t)|]. split; [intros w Hw; contradiction|]. intros f Hf. cbn in Hf. unfold at_rest. repeat (destruct Hf as [<- | Hf]); try contradiction; rz; repeat split; lra.
Qed.
(** C45: whatever the tracer, the diffusion, Manning and Coriolis coefficients and the time step *)
Theorem C45_example : forall s t D mann fc dt, exists new, update_solution_SW (rx_M D mann fc dt) rx_data rx_fg (rx_lake s t) = Ok (Some new) /\ zlen new = 2 /\
  forall c, 0 <= c < 2 -> exists x, nthZ None new c = Some x /\ q_h x = q_h (nthZ q5_zero (rx_lake s t) c) /\ q_hu x = 0%R /\ q_hv x = 0%R /\ q_Z x = q_Z (nthZ q5_zero (rx_lake s t) c).
Proof.
  intros s t D mann fc dt. destruct rx_vols as (V1 & V2). apply (C45_lake_step (rx_M D mann fc dt) rx_data rx_fg 2 (rx_lake s t) rx_wf rx_wl V1 V2 ltac:(intros x Hx; cbn in Hx; cbn; intuition) eq_refl rx_wc rx_mesures (rx_lake_rest s t) eq_refl (rx_is_lake s t)); [|reflexivity].
  apply rx_wd. reflexivity.
Qed.
Print Assumptions C45_example.
(** ... at second order the lake moves: depth is reconstructed at the faces but the bottom is not.  Whenever the gradient of h in cell 1 is not orthogonal to the way to the face, mass crosses it *)
Definition rx_data2 (G : pt) (w : list q5) : swdata := let a := reversed (nthZ q5_zero w 0) in let b := reversed (nthZ q5_zero w 1) in
  {| sw_c := w; sw_ghost := [a; a; q5_zero; b; b]; sw_halo := []; sw_gradh := [vzero; G]; sw_gradhh := []; sw_gradc := [vzero; vzero]; sw_gradch := []; sw_psi := [1; 1]%R; sw_psih := [] |}.
Lemma g981_val : (1 < g981)%R.
Proof. unfold g981. lra. Qed.
Lemma celerity_big l r : wet l -> wet r -> (1 <= (q_h l + q_h r) / 2)%R -> (1 / 10 ^ 10 <= celerity g981 l r)%R.
Proof.
  intros _ _ H. unfold celerity. apply Rle_trans with 1%R; [cbn; lra|]. rewrite <- sqrt_1 at 1. apply sqrt_le_1; [lra | |]; pose proof g981_val; nra.
Qed.
Theorem C45_order2_refuted : forall G s t, let e := (- (2 / 3) * px G - (1 / 2) * py G)%R in (0 < 1 + e)%R -> e <> 0%R ->
  lake 2 rx_L (rx_data2 G (rx_lake s t)) /\ exists F, sw_flux 2 rx_X rx_mes (rx_data2 G (rx_lake s t)) 2 = Some F /\ q_h F <> 0%R.
Proof.
  intros G s t e He Ne. split; [exact (rx_is_lake s t)|].
  set (l := face_left 2 rx_X (rx_data2 G (rx_lake s t)) 2). set (r := face_right 2 rx_X (rx_data2 G (rx_lake s t)) 2).
  assert (El : q_h l = 2%R /\ q_hu l = 0%R /\ q_hv l = 0%R /\ q_Z l = 0%R). { unfold l. rz. repeat split; try reflexivity. ring. }
  assert (Er : q_h r = (1 + e)%R /\ q_hu r = 0%R /\ q_hv r = 0%R /\ q_Z r = 1%R). { unfold r, e. destruct G as [gx gy gz]. rz. repeat split; try reflexivity. field. }
  destruct El as (L1 & L2 & L3 & L4). destruct Er as (R1 & R2 & R3 & R4).
  assert (Wl : wet l) by (unfold wet; rewrite L1; lra). assert (Wr : wet r) by (unfold wet; rewrite R1; lra).
  destruct (C45_still_water g981 5 (P3 3 4 0) l r g981_pos) as (F & E & EQ); try assumption; [split; cbn; lra | apply celerity_big; try assumption; rewrite L1, R1; lra|].
  exists F. split; [exact E|]. rewrite EQ, L1, L4, R1, R4. pose proof (c_pos g981 l r g981_pos Wl Wr). intros Z. apply Ne.
  assert (Z' : (celerity g981 l r * e = 0)%R) by lra. apply Rmult_integral in Z'. destruct Z'; [lra | assumption].
Qed.
Print Assumptions C45_order2_refuted.

(** ** C44, C58: a dam break between walls *)
Definition rx_dam (s t : R) : list q5 := [{| q_h := 5; q_hu := 0; q_hv := 0; q_hc := s; q_Z := 0 |}; {| q_h := 2; q_hu := 0; q_hv := 0; q_hc := t; q_Z := 0 |}]%R.
Lemma friction_none w dt : (forall x, In x w -> wet x) -> all_some (term_friction_SW w g981 0 dt) = Some w.
Proof.
  induction w as [|x w IH]; intros H; [reflexivity|]. cbn [term_friction_SW map all_some]. fold (term_friction_SW w g981 0 dt). rewrite IH by (intros y Hy; apply H; right; exact Hy).
  assert (Wx : wet x) by (apply H; left; reflexivity). unfold friction_cell. destruct (Rlt_dec 0 (q_h x)) as [_|N]; [|exfalso; exact (N Wx)].
  replace (1 + g981 * dt * 0 ^ 2 * sqrt ((q_hu x / q_h x) ^ 2 + (q_hv x / q_h x) ^ 2) / Rpower (q_h x) (4 / 3))%R with 1%R by (unfold Rdiv; ring).
  unfold odiv. destruct (Req_EM_T 1 0) as [E|_]; [exfalso; lra|]. unfold Rdiv. rewrite Rinv_1, !Rmult_1_r. destruct x. reflexivity.
Qed.
Lemma dam_after s t D fc dt : after_friction (rx_M D 0 fc dt) rx_data (rx_dam s t) = rx_data (rx_dam s t).
Proof.
  unfold after_friction. cbn [sm_coef rx_M rx_coef co_Mann sm_dt]. rewrite friction_none; [reflexivity|]. intros x Hx. cbn in Hx. unfold wet. destruct Hx as [<- | [<- | Hx]]; [| |contradiction]; cbn; lra.
Qed.
Lemma dam_source s t : exists a b, term_source_SW rx_X rx_C (rx_data (rx_dam s t)) = Ok [Some a; Some b].
Proof.
  destruct (source_cell (nthZ q5_zero (rx_dam s t) 0) (P3 (4/3) 1 0) (P3 4 0 0) (5, 0, P3 0 (-4) 0)%R (5, 0, P3 (-3) 0 0)%R (2, 0, P3 3 4 0)%R) as [(x, y)|] eqn:E0.
  2:{ exfalso. revert E0. unfold source_cell. cbv zeta. cbn [px py]. unfold odiv. destruct (Req_EM_T _ 0) as [E|_]; [intros _; lra | discriminate]. }
  destruct (source_cell (nthZ q5_zero (rx_dam s t) 1) (P3 (8/3) 2 0) (P3 0 3 0) (5, 0, P3 (-3) (-4) 0)%R (2, 0, P3 0 4 0)%R (2, 0, P3 3 0 0)%R) as [(x', y')|] eqn:E1.
  2:{ exfalso. revert E1. unfold source_cell. cbv zeta. cbn [px py]. unfold odiv. destruct (Req_EM_T _ 0) as [E|_]; [intros _; lra | discriminate]. }
  do 2 eexists. lazy -[source_cell Rdiv Rplus Rmult Ropp Rminus Rinv IZR]. unfold nthZ in E0, E1. cbn [Z.to_nat Pos.to_nat Pos.iter_op nth rx_dam] in E0, E1. change (Pos.to_nat 1) with 1%nat in E1. cbn [nth rx_dam] in E1.
  rewrite E0, E1. reflexivity.
Qed.
Lemma dam_flux s t f : In f (sw_faces rx_L) -> exists F, sw_flux 1 rx_X rx_mes (rx_data (rx_dam s t)) f = Some F.
Proof.
  intros Hf. pose proof (rx_mesures f Hf) as Hm.
  assert (H : forall x, In x [face_left 1 rx_X (rx_data (rx_dam s t)) f; face_right 1 rx_X (rx_data (rx_dam s t)) f] -> (2 <= q_h x)%R /\ q_hu x = 0%R /\ q_hv x = 0%R).
  { intros x Hx. cbn in Hf. repeat (destruct Hf as [<- | Hf]); try contradiction; (destruct Hx as [<- | [<- | Hx]]; [| |contradiction]); rz; repeat split; lra. }
  destruct (H _ (or_introl eq_refl)) as (L1 & L2 & L3). destruct (H _ (or_intror (or_introl eq_refl))) as (R1 & R2 & R3).
  set (l := face_left 1 rx_X (rx_data (rx_dam s t)) f) in *. set (r := face_right 1 rx_X (rx_data (rx_dam s t)) f) in *. clear H. assert (Wl : wet l) by (unfold wet; lra). assert (Wr : wet r) by (unfold wet; lra).
  destruct (C45_still_water g981 _ _ l r g981_pos Hm Wl Wr L2 L3 R2 R3) as (F & E & _); [apply celerity_big; [exact Wl | exact Wr | lra]|]. exists F. exact E.
Qed.
Lemma dam_step s t D fc dt : exists new, update_solution_SW (rx_M D 0 fc dt) rx_data rx_fg (rx_dam s t) = Ok (Some new) /\ forall c, 0 <= c < 2 -> nthZ None new c <> None.
Proof.
  unfold update_solution_SW. cbn [sm_coef rx_M rx_coef co_Mann sm_dt sm_order sm_X sm_mesure sm_L sm_vol sm_cells co_fc co_Dx co_Dy co_terms]. change (negb _) with false. cbv iota. rewrite friction_none. 2:{ intros x Hx. cbn in Hx. unfold wet. destruct Hx as [<- | [<- | Hx]]; [| |contradiction]; cbn; lra. }
  cbv zeta. destruct (residual_ok 1 rx_X rx_mes rx_L (rx_data (rx_dam s t)) rx_wf rx_wl (rx_wd (rx_dam s t) eq_refl)) as (rez & E1 & (Hz & P)). cbn [fv_centerc rx_X] in E1, Hz. change (zlen [P3 (4 / 3) 1 0; P3 (8 / 3) 2 0]) with 2 in E1, Hz.
  change (zlen (sw_c (rx_data (rx_dam s t)))) with 2. rewrite E1. cbn [bind].
  match goal with |- context [dissipative ?a ?b ?c ?d ?e ?f] => destruct (dissipative a b c d e f) as [dis|] eqn:E2 end. 2:{ exfalso. revert E2. rz. discriminate. }
  cbn [bind]. destruct (dam_source s t) as (a & b & E3). rewrite E3. cbn [bind].
  assert (Hd : zlen dis = 2). { revert E2. rz. intros [= <-]. reflexivity. }
  destruct (update_SW_ok (sw_c (rx_data (rx_dam s t))) rez [Some a; Some b] dis (term_coriolis_SW (sw_c (rx_data (rx_dam s t))) fc) (0, 0)%R dt rx_vol Hz eq_refl Hd eq_refl eq_refl) as (new & E4 & _ & Q).
  rewrite E4. cbn [bind]. exists new. split; [reflexivity|]. intros c Hc. rewrite Q by exact Hc.
  assert (R : exists r, nthZ None rez c = Some r).
  { destruct (P c Hc) as (P1 & _). eexists. apply (P1 (fun f => the5 (sw_flux 1 rx_X rx_mes (rx_data (rx_dam s t)) f))). intros f Hf _. destruct (dam_flux s t f Hf) as (F & E). rewrite E. reflexivity. }
  destruct R as (r & ->). two Hc.
  - change (nthZ None [Some a; Some b] 0) with (Some a). cbv iota beta. rewrite update_cell_ok; [discriminate|]. rz. lra.
  - change (nthZ None [Some a; Some b] 1) with (Some b). cbv iota beta. rewrite update_cell_ok; [discriminate|]. rz. lra.
Qed.
(** the water (and without diffusion the tracer) of the two cells together is kept, while the deeper cell loses some *)
Theorem C58_example : forall s t fc dt, exists new, update_solution_SW (rx_M 0 0 fc dt) rx_data rx_fg (rx_dam s t) = Ok (Some new) /\
  (6 * q_h (the5 (nthZ None new 0)) + 6 * q_h (the5 (nthZ None new 1)) = 6 * 5 + 6 * 2)%R /\
  (6 * q_hc (the5 (nthZ None new 0)) + 6 * q_hc (the5 (nthZ None new 1)) = 6 * s + 6 * t)%R.
Proof.
  intros s t fc dt. destruct (dam_step s t 0 fc dt) as (new & E & HN). exists new. split; [exact E|]. destruct rx_vols as (V1 & V2).
  destruct (C58_closed_basin (rx_M 0 0 fc dt) rx_data rx_fg (rx_dam s t) new rx_wf rx_wl V1 V2 rx_mesures (fun l => eq_refl)) as (A & B).
  - rewrite dam_after. apply rx_wd. reflexivity.
  - reflexivity.
  - reflexivity.
  - rewrite dam_after. intros f Hf. cbn in Hf. unfold wall_ghost, discharge. repeat (destruct Hf as [<- | Hf]); try contradiction; rz; repeat split; ring.
  - exact E.
  - exact HN.
  - specialize (B eq_refl eq_refl). change (zlen (fv_centerc (sm_X (rx_M 0 0 fc dt)))) with 2 in A, B. cbn [sm_vol rx_M] in A, B. change (range 2) with [0; 1] in A, B. unfold rsum in A, B. cbn [map fold_right] in A, B.
    revert A B. change (nthZ 0%R rx_vol 0) with 6%R. change (nthZ 0%R rx_vol 1) with 6%R. cbn [rx_dam]. change (nthZ q5_zero (rx_dam s t) 0) with {| q_h := 5; q_hu := 0; q_hv := 0; q_hc := s; q_Z := 0 |}%R. change (nthZ q5_zero (rx_dam s t) 1) with {| q_h := 2; q_hu := 0; q_hv := 0; q_hc := t; q_Z := 0 |}%R. cbn [q_h q_hc]. lra.
Qed.
Print Assumptions C58_example.
(** C46 on the same mesh *)
Theorem C46_example : forall s t, exists dt, time_step_SW (rx_dam s t) 1 (fv_normal rx_X) rx_mes rx_vol (cl_faceid rx_C) 0 0 = Ok (Some dt) /\ (0 < dt)%R.
Proof.
  intros s t. destruct (C46_time_step (rx_dam s t) 1 (fv_normal rx_X) rx_mes rx_vol (cl_faceid rx_C) 0 0) as (dt & E & B & _); [| lra | lra | exists dt; split; [exact E | lra]].
  constructor; [repeat split | |].
  - intros i Hi. two Hi; unfold wet; rz; lra.
  - intros i Hi. two Hi; (split; [reflexivity|]); intros f Hf; cbn in Hf; repeat (destruct Hf as [<- | Hf]); try contradiction; (split; [split; [discriminate | reflexivity]|]); rz; lra.
Qed.
Print Assumptions C46_example.
(** C57: a stream of depth 1 and velocity 10 (left) meets one of depth 1 and velocity 8 *)
Theorem C57_example : forall kl kr, let l := {| q_h := 1; q_hu := 10; q_hv := 0; q_hc := kl; q_Z := 0 |}%R in let r := {| q_h := 1; q_hu := 8; q_hv := 0; q_hc := kr; q_Z := 0 |}%R in
  srnh_scheme l r (P3 2 0 0) 2 g981 = Some {| q_h := 20; q_hu := 200 + g981; q_hv := 0; q_hc := 20 * kl; q_Z := 0 |}%R.
Proof.
  intros kl kr l r. destruct (C57_supercritical g981 2 (P3 2 0 0) l r g981_pos) as (H & _); [split; cbn; lra | unfold wet; cbn; lra | unfold wet; cbn; lra | reflexivity|].
  rewrite H.
  - f_equal. unfold physical_flux, discharge. cbn [q_h q_hu q_hv q_hc px py l]. f_equal; field.
  - unfold roe_speed, roe_mean, celerity. cbn [q_h q_hu q_hv l r px py]. rewrite sqrt_1.
    assert (C : (sqrt (g981 * ((1 + 1) / 2)) <= 4)%R). { replace 4%R with (sqrt (4 * 4)) by (apply sqrt_square; lra). apply sqrt_le_1_alt. unfold g981. lra. }
    replace (((1 * (10 / 1) + 1 * (8 / 1)) / (1 + 1) * 2 + (1 * (0 / 1) + 1 * (0 / 1)) / (1 + 1) * 0) / 2)%R with 9%R by field. cbn. lra.
Qed.
Print Assumptions C57_example.
Theorem C44_consistency_example : forall k, let w := {| q_h := 1; q_hu := 1; q_hv := 2; q_hc := k; q_Z := 7 |}%R in srnh_scheme w w (P3 3 4 0) 5 g981 = Some (physical_flux g981 w (P3 3 4 0)).
Proof.
  intros k w. apply C44_consistency; [apply g981_pos | split; cbn; lra | unfold wet; cbn; lra|]. unfold critical.
  assert (E : roe_speed w w (P3 3 4 0) 5 = (11 / 5)%R). { unfold roe_speed. rewrite !roe_mean_same by (unfold wet; cbn; lra). cbn. field. }
  rewrite E, Rabs_pos_eq by lra. unfold celerity. cbn [q_h w]. intros H. assert (S : (sqrt (g981 * ((1 + 1) / 2)) * sqrt (g981 * ((1 + 1) / 2)) = g981 * ((1 + 1) / 2))%R) by (apply sqrt_sqrt; unfold g981; lra).
  rewrite <- H in S. unfold g981 in S. lra.
Qed.
Print Assumptions C44_consistency_example.

(** ** C43: what is refuted *)
(** diffusion goes the wrong way: update_SW subtracts the diffusive flux.  Still water of depth 1, no tracer in cell 0 and tracer in cell 1, face gradient towards cell 1: cell 0 gets a negative amount *)
Theorem C43_diffusion_refuted : forall D e dt, (0 < D)%R -> (0 < e)%R -> (0 < dt)%R ->
  let still k := {| q_h := 1; q_hu := 0; q_hv := 0; q_hc := k; q_Z := 0 |}%R in
  exists dis new, dissipative (fv_cellid rx_X) (fv_normal rx_X) [vzero; vzero; P3 (3 * e) (4 * e) 0; vzero; vzero] (fv_name rx_X) (P3 D D 0) 2 = Ok dis /\
  update_SW [still 0%R; still 1%R] [Some q5_zero; Some q5_zero] [Some q5_zero; Some q5_zero] dis [(0, 0); (0, 0)]%R (0, 0)%R dt rx_vol = Ok new /\
  (q_hc (the5 (nthZ None new 0)) < 0)%R /\ (1 < q_hc (the5 (nthZ None new 1)))%R.
Proof.
  intros D e dt HD He Hdt still.
  destruct (dissipative (fv_cellid rx_X) (fv_normal rx_X) [vzero; vzero; P3 (3 * e) (4 * e) 0; vzero; vzero] (fv_name rx_X) (P3 D D 0) 2) as [dis|] eqn:E. 2:{ exfalso. revert E. rz. discriminate. }
  assert (Hz : zlen dis = 2 /\ nthZ 0%R dis 0 = (25 * D * e)%R /\ nthZ 0%R dis 1 = (- (25 * D * e))%R). { revert E. rz. intros [= <-]. split; [reflexivity|]. split; ring. }
  destruct Hz as (Hz & D0 & D1). destruct rx_vols as (V1 & V2).
  destruct (C43_update [still 0%R; still 1%R] [Some q5_zero; Some q5_zero] [Some q5_zero; Some q5_zero] dis [(0, 0); (0, 0)]%R (0, 0)%R dt rx_vol eq_refl eq_refl Hz eq_refl V1 V2) as (new & E4 & _ & Q).
  exists dis, new. split; [reflexivity|]. split; [exact E4|]. rewrite (Q 0 q5_zero q5_zero ltac:(split; [discriminate | reflexivity]) eq_refl eq_refl), (Q 1 q5_zero q5_zero ltac:(split; [discriminate | reflexivity]) eq_refl eq_refl). cbv zeta. cbn [the5 q_hc]. rewrite D0, D1.
  change (nthZ 0%R rx_vol 0) with 6%R. change (nthZ 0%R rx_vol 1) with 6%R. change (nthZ q5_zero [still 0%R; still 1%R] 0) with (still 0%R). change (nthZ q5_zero [still 0%R; still 1%R] 1) with (still 1%R). cbn [q_hc q5_zero still].
  assert (P : (0 < dt * (25 * D * e))%R) by (repeat apply Rmult_lt_0_compat; lra). split; lra.
Qed.
Print Assumptions C43_diffusion_refuted.
(** the Coriolis term is not orthogonal to the discharge: a current along x is accelerated along x *)
Theorem C43_coriolis_refuted : forall f u, f <> 0%R -> u <> 0%R ->
  let cor := nthZ (0, 0)%R (term_coriolis_SW [{| q_h := 1; q_hu := u; q_hv := 0; q_hc := 0; q_Z := 0 |}%R] f) 0 in (fst cor * u + snd cor * 0 <> 0)%R.
Proof. intros f u Hf Hu cor. unfold cor, term_coriolis_SW. cbn [map]. unfold nthZ. cbn [Z.to_nat nth fst snd q_hu q_hv]. intros E. assert (H : (f * (u * u) = 0)%R) by (rewrite <- E; ring). apply Rmult_integral in H as [H|H]; [contradiction|]. apply Rmult_integral in H as [H|H]; contradiction. Qed.
Print Assumptions C43_coriolis_refuted.

(** ** C60 *)
Open Scope string_scope.
(** the Coriolis coefficient is read from the entry of Manning *)
Theorem C60_coriolis_refuted : exists d co, param d "CoriolisForce" = Some 1%R /\ sw_init (Some ["coriolis"; "friction"]) (Some d) = Ok co /\ co_fc co = 3%R.
Proof. exists [("CoriolisForce", 1%R); ("Manning", 3%R)]. eexists. split; [reflexivity|]. split; reflexivity. Qed.
(** ... whose absence is not caught by the check *)
Theorem C60_manning_refuted : forall f, sw_init (Some ["coriolis"]) (Some [("CoriolisForce", f)]) = Err KeyError.
Proof. reflexivity. Qed.
Theorem C60_no_parameters_refuted : sw_init None None = Err TypeError.
Proof. reflexivity. Qed.
(** a list given by the caller is extended by every model constructed with it *)
Theorem C60_terms_refuted : exists t co co', sw_init (Some t) (Some []) = Ok co /\ sw_init (Some (co_terms co)) (Some []) = Ok co' /\ co_terms co' = ["source"; "convective"; "convective"].
Proof. exists ["source"]. do 2 eexists. split; [reflexivity|]. split; reflexivity. Qed.
(** a model constructed without one of source, dissipation, coriolis cannot be updated *)
Theorem C60_missing_term_refuted : forall M refresh facegrad w, ~ In "coriolis" (co_terms (sm_coef M)) \/ ~ In "dissipation" (co_terms (sm_coef M)) \/ ~ In "source" (co_terms (sm_coef M)) ->
  update_solution_SW M refresh facegrad w = Err AttributeError.
Proof.
  intros M refresh facegrad w H. unfold update_solution_SW. assert (N : forall t, ~ In t (co_terms (sm_coef M)) -> has_term t (co_terms (sm_coef M)) = false).
  { intros t Ht. unfold has_term. destruct (existsb _ _) eqn:E; [|reflexivity]. apply existsb_exists in E as (x & Hx & E). apply String.eqb_eq in E. subst. contradiction. }
  destruct H as [H|[H|H]]; apply N in H; cbn [forallb]; rewrite H, ?andb_false_r; cbn; rewrite ?andb_false_r; reflexivity.
Qed.
Print Assumptions C60_missing_term_refuted.
(** the variables are kept in a dictionary of the class: after constructing a second model, update_values of either refreshes the second one's variables only *)
Theorem C60_shared_refuted : forall (v w : string -> Z) (varbs : list (string * Z)), varbs = [] -> update_values_of (construct_varbs (construct_varbs varbs v) w) = map w sw_names.
Proof. intros v w varbs ->. reflexivity. Qed.
