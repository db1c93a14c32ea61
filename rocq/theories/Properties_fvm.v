(** * Properties_fvm: C29-C34.
    Vocabulary: [Spec_fvm]; the face tables and lists are those of C11, C12, C16, C18 and C22. *)
From Verif Require Import Py PyLemmas Model_part Model_conn Spec_conn Model_geom Spec_geom Model_interp Spec_interp Model_fvm Spec_fvm Proofs_conn1 Proofs_interp1 Proofs_fvm1 Proofs_fvm2.
From Coq Require Import Permutation Lra ZifyBool.
Open Scope Z_scope.

(** C29.  The convective residual of every cell is minus what leaves it through its faces, and summed over the cells only the
    fluxes through the non-interior faces remain. *)
Theorem C29_convection_conservative : forall dim order X L A vel, wf_fvdata dim X -> wf_lists dim X L -> wf_advected X A vel ->
  exists rez, convective dim order X L A vel (zlen (fv_centerc X)) = Ok rez /\ zlen rez = zlen (fv_centerc X) /\
  (forall c, 0 <= c < zlen (fv_centerc X) -> nthZ 0%R rez c = (- rsum (map (leaves X (fv_flux dim order X A vel) c) (all_faces L)))%R) /\
  rsum rez = (- rsum (map (fv_flux dim order X A vel) (outer_faces L)))%R.
Proof. intros dim order X L A vel WF WL WA. exact (c29 dim X L WF WL order A vel WA). Qed.
Print Assumptions C29_convection_conservative.

(** the fluxes through two partner periodic faces are opposite; if the periodic faces fall into such pairs only the fluxes
    through halo and boundary faces remain *)
Theorem C29_periodic_pairs : forall dim order X L A vel pairs, wf_fvdata dim X -> wf_lists dim X L -> wf_advected X A vel ->
  Permutation (ls_periodic L) (flat_map (fun p => [fst p; snd p]) pairs) -> (forall f f', In (f, f') pairs -> partners dim X vel f f') ->
  (forall f f', In (f, f') pairs -> fv_flux dim order X A vel f' = (- fv_flux dim order X A vel f)%R) /\
  exists rez, convective dim order X L A vel (zlen (fv_centerc X)) = Ok rez /\
    rsum rez = (- rsum (map (fv_flux dim order X A vel) (ls_halo L ++ ls_boundary L)))%R.
Proof.
  intros dim order X L A vel pairs WF WL WA HP HQ.
  assert (HF : forall f f', In (f, f') pairs -> fv_flux dim order X A vel f' = (- fv_flux dim order X A vel f)%R).
  { intros f f' Hin. assert (HI : forall g, g = f \/ g = f' -> is_periodic dim (fv_label X g) = true).
    { intros g Hg. destruct WL as (_ & W2 & _). apply (W2 g). apply (Permutation_in g (Permutation_sym HP)). apply in_flat_map. exists (f, f'). split; [exact Hin|]. cbn. destruct Hg as [-> | ->]; auto. }
    apply partners_flux; [apply HI; auto | apply HI; auto | apply HQ; exact Hin]. }
  split; [exact HF|]. destruct (c29 dim X L WF WL order A vel WA) as (rez & E & _ & _ & H). exists rez. split; [exact E|]. rewrite H. unfold outer_faces. rewrite !map_app, !rsum_app.
  rewrite (rsum_perm _ _ (Permutation_map (fv_flux dim order X A vel) HP)). assert (E0 : rsum (map (fv_flux dim order X A vel) (flat_map (fun p => [fst p; snd p]) pairs)) = 0%R); [|rewrite E0; ring].
  clear - HF. induction pairs as [|(f, f') ps IH]; [reflexivity|]. cbn [flat_map app map fst snd]. rewrite !rsum_cons. rewrite IH by (intros; apply HF; right; assumption). rewrite (HF f f' (or_introl eq_refl)). ring.
Qed.
Print Assumptions C29_periodic_pairs.

(** the two ranks sharing a cut face compute opposite fluxes through it *)
Theorem C29_cut_faces : forall dim order X A vel f X' A' vel' f', fv_label X f = 10 -> fv_label X' f' = 10 -> two_sides X A vel f X' A' vel' f' ->
  fv_flux dim order X' A' vel' f' = (- fv_flux dim order X A vel f)%R.
Proof. intros. apply two_ranks_flux; assumption. Qed.
Print Assumptions C29_cut_faces.

(** C30.  The diffusive residual of every cell is what enters it through its faces, and summed over the cells only the fluxes
    through the faces that are not interior remain. *)
Theorem C30_diffusion_conservative : forall dim X grads D, wf_fvdata dim X -> zlen grads = zlen (fv_cellid X) ->
  exists r, dissipative (fv_cellid X) (fv_normal X) grads (fv_name X) D (zlen (fv_centerc X)) = Ok r /\ zlen r = zlen (fv_centerc X) /\
  (forall c, 0 <= c < zlen (fv_centerc X) -> nthZ 0%R r c = rsum (map (leaves X (diffusion X grads D) c) (range (zlen (fv_cellid X))))) /\
  rsum r = rsum (map (diffusion X grads D) (filter (fun f => negb (fv_label X f =? 0)) (range (zlen (fv_cellid X))))).
Proof. intros dim X grads D WF HG. exact (c30 dim X WF grads D HG). Qed.
Print Assumptions C30_diffusion_conservative.

(** C31.  The upwind flux. *)
Theorem C31_upwind : forall wl wr v n,
  ((0 <= vdot v n)%R -> compute_upwind_flux wl wr v n = (vdot v n * wl)%R) /\ ((vdot v n <= 0)%R -> compute_upwind_flux wl wr v n = (vdot v n * wr)%R) /\
  (forall w, compute_upwind_flux w w v n = (vdot v n * w)%R) /\
  compute_upwind_flux wr wl v (vscal (-1) n) = (- compute_upwind_flux wl wr v n)%R.
Proof.
  intros wl wr v n. rewrite !upwind_eq. split; [|split; [|split]].
  - intros H. destruct (Rle_dec 0 (vdot v n)); [reflexivity | contradiction].
  - intros H. destruct (Rle_dec 0 (vdot v n)); [replace (vdot v n) with 0%R by lra; ring | reflexivity].
  - intros w. rewrite upwind_eq. destruct (Rle_dec 0 (vdot v n)); reflexivity.
  - replace (vdot v (vscal (-1) n)) with (- vdot v n)%R by (unfold vdot, vscal; cbn [px py pz]; ring). apply opposite_flux.
Qed.
Print Assumptions C31_upwind.
(** the flux is monotone in both states: increasing in the left one, decreasing in the right one *)
Theorem C31_monotone : forall wl wl' wr wr' v n, (wl <= wl')%R -> (wr' <= wr)%R -> (compute_upwind_flux wl wr v n <= compute_upwind_flux wl' wr' v n)%R.
Proof.
  intros wl wl' wr wr' v n Hl Hr. rewrite !upwind_eq. destruct (Rle_dec 0 (vdot v n)).
  - apply Rmult_le_compat_l; assumption.
  - assert (0 <= (- vdot v n) * (wr - wr'))%R by (apply Rmult_le_pos; lra). lra.
Qed.
Print Assumptions C31_monotone.

(** C32.  With a constant field and velocity the residual of every closed cell is zero and an explicit step (no diffusion, no
    source) leaves its value as it is. *)
Theorem C32_uniform_state : forall dim order X L A vel k u vol dt, wf_fvdata dim X -> wf_lists dim X L -> wf_advected X A vel ->
  constant_field L k order A -> (forall f, In f (all_faces L) -> nthZ vzero vel f = u) -> zlen vol = zlen (fv_centerc X) -> (forall c, 0 <= c < zlen (fv_centerc X) -> nthZ 0%R vol c <> 0%R) ->
  let zero := zeros_like 0%R (zlen (fv_centerc X)) in
  exists rez new, convective dim order X L A vel (zlen (fv_centerc X)) = Ok rez /\ update_new_value (ad_c A) rez zero zero vol dt = Ok new /\
  forall c, 0 <= c < zlen (fv_centerc X) -> closed_cell X L c -> nthZ 0%R rez c = 0%R /\ nthZ None new c = Some k.
Proof.
  intros dim order X L A vel k u vol dt WF WL WA K Hu HV HN zero. destruct (c32 dim X L WF WL k u order A vel WA K Hu) as (rez & E & Hl & H). pose proof WA as (A1 & _).
  destruct (update_ok (ad_c A) rez zero zero vol dt) as (new & En & _ & P); try (unfold zero; rewrite ?zlen_zeros_like by apply zlen_nonneg; lia); [intros c Hc; apply HN; lia|].
  exists rez, new. split; [exact E|]. split; [exact En|]. intros c Hc HC. rewrite (H c Hc HC). split; [reflexivity|]. rewrite P by lia. rewrite (H c Hc HC). unfold zero. rewrite !nthZ_zeros by exact Hc.
  destruct K as (K1 & _). rewrite (K1 (nthZ 0%R (ad_c A) c)) by (apply nthZ_In; lia). f_equal. unfold Rdiv. ring.
Qed.
Print Assumptions C32_uniform_state.

(** C33.  The time step is positive, at most 1e6, respects the CFL condition in every cell, and is the largest such number. *)
Theorem C33_time_step : forall dim vel normal cfl mesure volume faceid D, wf_timestep dim vel normal mesure volume faceid -> (0 < cfl)%R -> (0 <= px D + py D + pz D)%R ->
  let ws := wave_speed vel normal volume faceid D in
  exists dt, time_step dim vel normal cfl mesure volume faceid D = Ok (Some dt) /\ (0 < dt <= 1000000)%R /\
  (forall i, 0 <= i < zlen faceid -> (0 <= ws i /\ dt * ws i <= cfl * nthZ 0 volume i)%R /\ (ws i <> 0 -> dt <= cfl * nthZ 0 volume i / ws i)%R) /\
  (dt = 1000000%R \/ exists i, 0 <= i < zlen faceid /\ (ws i <> 0)%R /\ dt = (cfl * nthZ 0 volume i / ws i)%R).
Proof. intros dim vel normal cfl mesure volume faceid D WT Hc HD ws. exact (c33 dim vel normal mesure volume faceid D WT cfl Hc HD). Qed.
Print Assumptions C33_time_step.

(** C34.  One explicit step of the first-order scheme with velocities that have no divergence in the cell and a time step in which
    no more than the volume of the cell flows in: the new value lies between any bounds of the values in and around the cell. *)
Theorem C34_maximum_principle : forall dim X L A vel vol dt, wf_fvdata dim X -> wf_lists dim X L -> wf_advected X A vel ->
  zlen vol = zlen (fv_centerc X) -> (forall c, 0 <= c < zlen (fv_centerc X) -> (0 < nthZ 0 vol c)%R) -> (0 <= dt)%R ->
  let zero := zeros_like 0%R (zlen (fv_centerc X)) in
  exists rez new, convective dim 1 X L A vel (zlen (fv_centerc X)) = Ok rez /\ update_new_value (ad_c A) rez zero zero vol dt = Ok new /\
  forall c lo hi, 0 <= c < zlen (fv_centerc X) -> rsum (map (leaves X (throughput X vel) c) (all_faces L)) = 0%R -> (dt * inflow X L vel c <= nthZ 0 vol c)%R ->
    (lo <= nthZ 0 (ad_c A) c <= hi)%R -> (forall f, In f (all_faces L) -> touches_face X c f -> (lo <= beyond dim X A c f <= hi)%R) ->
    exists x, nthZ None new c = Some x /\ (lo <= x <= hi)%R.
Proof.
  intros dim X L A vel vol dt WF WL WA HV HP Hdt zero. destruct (c34 dim X L WF WL A vel vol dt WA HV HP Hdt) as (rez & new & E & En & _ & H). exists rez, new. split; [exact E|]. split; [exact En|]. exact H.
Qed.
Print Assumptions C34_maximum_principle.

(** in particular for a constant velocity and the time step of [time_step] (or any smaller one, e.g. the minimum over the ranks) with 0 < cfl <= 1 *)
Theorem C34_cfl_time_step : forall dim X L A u vel velc faceid mesure vol cfl D dt0 dt,
  wf_fvdata dim X -> wf_lists dim X L -> wf_advected X A vel -> lists_faces X L faceid -> wf_timestep dim velc (fv_normal X) mesure vol faceid ->
  (forall f, In f (all_faces L) -> nthZ vzero vel f = u) -> (forall c, 0 <= c < zlen velc -> nthZ vzero velc c = u) ->
  (0 < cfl <= 1)%R -> (0 <= px D + py D + pz D)%R -> time_step dim velc (fv_normal X) cfl mesure vol faceid D = Ok (Some dt0) -> (0 <= dt <= dt0)%R ->
  let zero := zeros_like 0%R (zlen (fv_centerc X)) in
  exists rez new, convective dim 1 X L A vel (zlen (fv_centerc X)) = Ok rez /\ update_new_value (ad_c A) rez zero zero vol dt = Ok new /\
  forall c lo hi, 0 <= c < zlen (fv_centerc X) -> closed_cell X L c ->
    (lo <= nthZ 0 (ad_c A) c <= hi)%R -> (forall f, In f (all_faces L) -> touches_face X c f -> (lo <= beyond dim X A c f <= hi)%R) ->
    exists x, nthZ None new c = Some x /\ (lo <= x <= hi)%R.
Proof.
  intros dim X L A u vel velc faceid mesure vol cfl D dt0 dt WF WL WA LF WT Hu Huc Hcfl HD ET Hdt zero. destruct (wt_len _ _ _ _ _ _ WT) as (L1 & L2 & L3). pose proof LF as (F1 & _).
  destruct (c34 dim X L WF WL A vel vol dt WA) as (rez & new & E & En & _ & H); [lia | intros c Hc; apply (wt_vol _ _ _ _ _ _ WT); lia | lra|].
  exists rez, new. split; [exact E|]. split; [exact En|]. intros c lo hi Hc HC Hw Hn. apply H; try assumption; [apply (closed_div X L vel u c Hu HC)|].
  destruct (c33 dim velc (fv_normal X) mesure vol faceid D WT cfl ltac:(lra) HD) as (dt1 & ET1 & B1 & F & _). rewrite ET in ET1. injection ET1 as <-.
  destruct (F c ltac:(lia)) as ((W0 & W1) & _). pose proof (wt_vol _ _ _ _ _ _ WT c ltac:(lia)) as V.
  assert (HI : (inflow X L vel c <= wave_speed velc (fv_normal X) vol faceid D c)%R).
  { eapply Rle_trans; [apply (c34_cfl X L u vel faceid vol c LF Hu Hc)|]. unfold wave_speed. apply rsum_map_le. intros f Hf. cbv zeta. rewrite (Huc c ltac:(lia)).
    assert (0 <= (px D + py D + pz D) * vdot (nthZ vzero (fv_normal X) f) (nthZ vzero (fv_normal X) f) / nthZ 0%R vol c)%R; [|lra].
    apply Rmult_le_pos; [|left; apply Rinv_0_lt_compat; exact V]. apply Rmult_le_pos; [exact HD|]. unfold vdot. set (n := nthZ vzero (fv_normal X) f). pose proof (Rle_0_sqr (px n)); pose proof (Rle_0_sqr (py n)); pose proof (Rle_0_sqr (pz n)); unfold Rsqr in *; lra. }
  assert (I0 : (0 <= inflow X L vel c)%R) by (apply rsum_map_nonneg; intros; apply Rmax_l).
  apply Rle_trans with (dt0 * wave_speed velc (fv_normal X) vol faceid D c)%R; [apply Rmult_le_compat; lra|]. apply Rle_trans with (cfl * nthZ 0 vol c)%R; [exact W1|]. rewrite <- (Rmult_1_l (nthZ 0%R vol c)) at 2. apply Rmult_le_compat_r; lra.
Qed.
Print Assumptions C34_cfl_time_step.
