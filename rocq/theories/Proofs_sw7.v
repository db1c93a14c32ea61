(** * Proofs_sw7: the time step and the whole update. *)
From Coq Require Import String Reals Lra Psatz Permutation ZifyBool Rpower.
From Verif Require Import Py PyLemmas Model_part Model_conn Spec_conn Model_geom Spec_geom Model_interp Spec_interp Model_fvm Spec_fvm Proofs_conn1 Proofs_interp1 Proofs_fvm1 Proofs_fvm2 Model_sw Spec_sw Proofs_sw3 Proofs_sw4 Proofs_sw5 Proofs_sw6.
Open Scope Z_scope.

Section Dt.
Context (w : list q5) (normal : list pt) (mesure volume : list R) (faceid : list (list Z)) (Dxx Dyy : R).
Context (WT : wf_sw_timestep w normal mesure volume faceid) (HD : (0 <= Dxx + Dyy)%R).
Let ws := sw_wave_speed w normal mesure volume faceid Dxx Dyy.
Lemma sw_lam_ok i : 0 <= i < zlen faceid -> sw_lam w normal mesure volume faceid Dxx Dyy i = Ok (Some (ws i)).
Proof.
  intros Hi. destruct (ws_len _ _ _ _ _ WT) as (L1 & L2 & L3). destruct (ws_row _ _ _ _ _ WT i Hi) as (R1 & R2). destruct (ws_cell _ _ _ _ _ WT i Hi) as (V & Hw). unfold wet in Hw.
  unfold sw_lam, get2. rewrite (get_nthZ q5_zero) by lia. cbn [bind]. rewrite (get_nthZ [] faceid) by exact Hi. cbn [bind].
  rewrite (foldM_range_get (fun lam f => do n <- get normal f; do m <- get mesure f; do vol <- get volume i; _) (nthZ [] faceid i)) by (symmetry; exact R1).
  unfold ws, sw_wave_speed. set (q := nthZ q5_zero w i) in *. set (row := nthZ [] faceid i) in *.
  match goal with |- foldM ?g row _ = _ => set (step := g) end. cbv zeta.
  match goal with |- context [map ?g row] => set (sp := g) end.
  assert (G0 : forall f a, In f row -> step (Some a) f = Ok (Some (a + sp f)%R)).
  { intros f a Hf. destruct (R2 f Hf) as (Rf & Mf). unfold step. rewrite (get_nthZ vzero normal) by exact Rf. cbn [bind]. rewrite (get_nthZ 0%R mesure) by lia. cbn [bind]. rewrite (get_nthZ 0%R volume) by lia. cbn [bind]. cbv zeta.
    unfold sp. set (n := nthZ vzero normal f). rewrite nonneg_true by (intros x [<-|[]]; lra). rewrite nonzero_true by (intros x [<-|[<-|[<-|[]]]]; lra). cbn [andb oadd]. f_equal. f_equal.
    rewrite pow2_sqrt by (pose proof (Rle_0_sqr (px n)); pose proof (Rle_0_sqr (py n)); unfold Rsqr in *; lra). field. split; lra. }
  assert (G : forall l a, (forall f, In f l -> In f row) -> foldM step l (Some a) = Ok (Some (a + rsum (map sp l))%R)).
  { induction l as [|f l IH]; intros a Hsub; [cbn [foldM map]; unfold rsum; cbn [fold_right]; rewrite Rplus_0_r; reflexivity|].
    cbn [foldM]. rewrite G0 by (apply Hsub; left; reflexivity). cbn [bind]. rewrite IH by (intros g Hg; apply Hsub; right; exact Hg). f_equal. f_equal. cbn [map]. rewrite rsum_cons. ring. }
  rewrite G by (intros f Hf; exact Hf). rewrite Rplus_0_l. reflexivity.
Qed.
Lemma sw_ws_pos i : 0 <= i < zlen faceid -> (0 < ws i)%R.
Proof.
  intros Hi. destruct (ws_row _ _ _ _ _ WT i Hi) as (R1 & R2). destruct (ws_cell _ _ _ _ _ WT i Hi) as (V & Hw). unfold wet in Hw. unfold ws, sw_wave_speed. cbv zeta. set (q := nthZ q5_zero w i) in *.
  assert (S : (0 < sqrt (g981 * q_h q))%R) by (apply sqrt_lt_R0, Rmult_lt_0_compat; [apply g981_pos | exact Hw]).
  match goal with |- context [map ?g _] => set (sp := g) end.
  assert (P : forall f, In f (nthZ [] faceid i) -> (0 < sp f)%R).
  { intros f Hf. destruct (R2 f Hf) as (_ & Mf). unfold sp. set (n := nthZ vzero normal f). pose proof (Rabs_pos (q_hu q / q_h q * px n + q_hv q / q_h q * py n)). assert (0 < sqrt (g981 * q_h q) * nthZ 0%R mesure f)%R by (apply Rmult_lt_0_compat; assumption).
    assert (0 <= (Dxx + Dyy) * (px n ^ 2 + py n ^ 2) / nthZ 0%R volume i)%R; [|lra]. apply Rmult_le_pos; [|left; apply Rinv_0_lt_compat; exact V]. apply Rmult_le_pos; [exact HD|]. pose proof (pow2_ge_0 (px n)). pose proof (pow2_ge_0 (py n)). lra. }
  rewrite (row3 0 _ R1) in *. cbn [map]. rewrite !rsum_cons. change (rsum []) with 0%R. pose proof (P _ (or_introl eq_refl)). pose proof (P _ (or_intror (or_introl eq_refl))). pose proof (P _ (or_intror (or_intror (or_introl eq_refl)))). lra.
Qed.
Lemma sw_dt_ok cfl : (0 < cfl)%R -> exists dt, time_step_SW w cfl normal mesure volume faceid Dxx Dyy = Ok (Some dt) /\ (0 < dt <= 1000000)%R /\
  (forall i, 0 <= i < zlen faceid -> (dt <= cfl * nthZ 0 volume i / ws i)%R) /\
  (dt = 1000000%R \/ exists i, 0 <= i < zlen faceid /\ dt = (cfl * nthZ 0 volume i / ws i)%R).
Proof.
  intros Hc. unfold time_step_SW.
  destruct (foldM_range_inv (fun n o => exists dt, o = Some dt /\ (0 < dt <= 1000000)%R /\
    (forall i, 0 <= i < n -> (dt <= cfl * nthZ 0 volume i / ws i)%R) /\
    (dt = 1000000%R \/ exists i, 0 <= i < n /\ dt = (cfl * nthZ 0 volume i / ws i)%R))
    (fun dt i => do lam <- sw_lam w normal mesure volume faceid Dxx Dyy i; do vol <- get volume i; ret (min_quot dt (cfl * vol) lam)) (zlen faceid) (Some 1000000%R)) as (o & E & dt & -> & B & F & M).
  - apply zlen_nonneg.
  - exists 1000000%R. split; [reflexivity|]. split; [lra|]. split; [intros; lia | left; reflexivity].
  - intros i o Hi (dt & -> & B & F & M). rewrite sw_lam_ok by exact Hi. cbn [bind]. destruct (ws_len _ _ _ _ _ WT) as (L1 & L2 & L3). rewrite (get_nthZ 0%R) by lia. cbn [bind]. eexists. split; [reflexivity|].
    destruct (ws_cell _ _ _ _ _ WT i Hi) as (V & _). pose proof (sw_ws_pos i Hi) as W. assert (P : (0 < cfl * nthZ 0 volume i)%R) by (apply Rmult_lt_0_compat; assumption).
    unfold min_quot. destruct (Req_EM_T (ws i) 0) as [Z0|NZ]; [lra|].
    assert (Q : (0 < cfl * nthZ 0 volume i / ws i)%R) by (apply Rdiv_lt_0_compat; lra). eexists. split; [reflexivity|]. split; [split; [apply Rmin_glb_lt; lra | pose proof (Rmin_l dt (cfl * nthZ 0 volume i / ws i)%R); lra]|]. split.
    + intros j Hj. destruct (Z.eq_dec j i) as [-> |]; [apply Rmin_r|]. eapply Rle_trans; [apply Rmin_l | apply F; lia].
    + unfold Rmin. destruct (Rle_dec _ _); [destruct M as [M|(j & Hj & M)]; [left; exact M | right; exists j; split; [lia | exact M]] | right; exists i; split; [lia | reflexivity]].
  - exists dt. split; [exact E|]. split; [exact B|]. split; [exact F | exact M].
Qed.
End Dt.

Section Step.
Context (M : swmodel) (refresh : list q5 -> swdata) (facegrad : swdata -> list pt).
Let X := sm_X M.
Let L := sm_L M.
Let nc := zlen (fv_centerc X).
Context (WF : wf_fvdata 2 X) (WL : wf_lists 2 X L).
Context (HV : zlen (sm_vol M) = nc /\ forall c, 0 <= c < nc -> (0 < nthZ 0%R (sm_vol M) c)%R).

Lemma all_terms_ok M' : all_terms M' -> forallb (fun t => has_term t (co_terms (sm_coef M'))) ["convective"; "dissipation"; "source"; "coriolis"]%string = true.
Proof. intros H. apply forallb_forall. intros t Ht. unfold has_term. apply existsb_exists. exists t. split; [apply H, Ht | apply String.eqb_refl]. Qed.
Lemma update_cell_ok w r s d cor wind dt vol : vol <> 0%R -> update_cell w r s d cor wind dt vol = Some
  {| q_h := q_h w + dt * (q_h r + q_h s) / vol; q_hu := q_hu w + dt * ((q_hu r + q_hu s) / vol + fst cor + fst wind);
     q_hv := q_hv w + dt * ((q_hv r + q_hv s) / vol + snd cor + snd wind); q_hc := q_hc w + dt * (q_hc r + q_hc s - d) / vol; q_Z := q_Z w + dt * (q_Z r + q_Z s) / vol |}%R.
Proof. intros H. unfold update_cell, odiv. destruct (Req_EM_T vol 0); [contradiction | reflexivity]. Qed.

Lemma lake_step H w : all_terms M -> sm_order M = 1 -> wf_swcells X L (sm_cells M) ->
  (forall f, In f (sw_faces L) -> measures (nthZ vzero (fv_normal X) f) (nthZ 0%R (sm_mesure M) f)) ->
  (forall x, In x w -> at_rest H x) -> sw_c (refresh w) = w -> lake H L (refresh w) -> wf_swdata X (sm_mesure M) (refresh w) -> zlen (facegrad (refresh w)) = zlen (fv_cellid X) ->
  exists new, update_solution_SW M refresh facegrad w = Ok (Some new) /\ zlen new = zlen w /\
  forall c, 0 <= c < zlen w -> exists x, nthZ None new c = Some x /\ q_h x = q_h (nthZ q5_zero w c) /\ q_hu x = 0%R /\ q_hv x = 0%R /\ q_Z x = q_Z (nthZ q5_zero w c).
Proof.
  intros HT Ho WC WM HR EA LK WA FG. unfold update_solution_SW. rewrite (all_terms_ok M HT). cbn [negb]. rewrite (friction_lake H w) by exact HR. cbv zeta. fold X L. rewrite Ho, EA.
  set (A := refresh w) in *. destruct (wsw_cells _ _ _ WA) as (A1 & _). rewrite EA in A1.
  assert (En : zlen w = nc) by exact A1. rewrite En.
  destruct (residual_ok 1 X (sm_mesure M) L A WF WL WA) as (rez & E1 & (Hz & D)). fold nc in E1, Hz, D. rewrite E1. cbn [bind].
  destruct (dissip_ok 2 X WF (facegrad A) (P3 (co_Dx (sm_coef M)) (co_Dy (sm_coef M)) 0) FG) as (dis & E2 & Hd & _). fold nc in E2, Hd. rewrite E2. cbn [bind].
  destruct (source_lake X (sm_mesure M) L (sm_cells M) A H WF WL WA WC LK) as (src & E3 & Hs & PS). fold nc in Hs, PS. rewrite E3. cbn [bind].
  destruct HV as (V1 & V2).
  destruct (update_SW_ok w rez src dis (term_coriolis_SW w (co_fc (sm_coef M))) (0, 0)%R (sm_dt M) (sm_vol M)) as (new & E4 & Hn & PN); try (rewrite ?Hz, ?Hs, ?Hd, ?V1; symmetry; exact En); [unfold term_coriolis_SW; apply zlen_map|].
  rewrite E4. cbn [bind]. exists new. split; [reflexivity|]. split; [rewrite Hn; exact En|]. intros c Hc.
  rewrite PN by (rewrite En; exact Hc). destruct (D c Hc) as (D1 & _). rewrite (D1 (Frest X A)). 2:{ intros f Hf _. apply (flux_rest X (sm_mesure M) L A H WF WL WA LK WM f Hf). }
  rewrite PS by exact Hc. pose proof (V2 c Hc) as V. rewrite update_cell_ok by lra. eexists. split; [reflexivity|]. cbn [q_h q_hu q_hv q_Z fst snd].
  assert (Rc : at_rest H (nthZ q5_zero w c)) by (apply HR, nthZ_In; lia). destruct Rc as (_ & U1 & U2 & _).
  unfold term_coriolis_SW. rewrite (nthZ_map _ q5_zero) by lia. rewrite U1, U2. cbn [fst snd]. set (l5 := leaves5 X (Frest X A) c (sw_faces L)). unfold q5_opp. cbn [q_h q_hu q_hv q_Z].
  repeat split; field; lra.
Qed.
End Step.
