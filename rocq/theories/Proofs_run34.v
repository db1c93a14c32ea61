(** * Proofs_run34: one rank of the streamer program: drift, means, time step, ionisation, diffusion, update (C83). *)
From Coq Require Import Reals Rpower Lra Psatz Permutation Sorted.
From Verif Require Import Py PyLemmas Model_part Spec_part Model_label Model_conn Spec_conn Proofs_conn1 Proofs_conn2 Model_geom Spec_geom Proofs_geom1 Proofs_geom2 Proofs_geom3
  Model_halo Spec_halo Model_interp Spec_interp Proofs_interp4 Proofs_interp5 Proofs_interp6 Spec_lsq Proofs_lsq Properties_lsq Model_fvm Spec_fvm Proofs_fvm1 Proofs_fvm2 Properties_fvm Model_bc Spec_bc Spec_bc3 Proofs_label Proofs_bc Proofs_bc2 Proofs_bc3 Properties_bc3 Model_domain Spec_domain Proofs_domain1 Proofs_domain4
  Model_comm Model_parallel Spec_parallel Proofs_parallel1 Proofs_parallel6 Properties_parallel Model_run Spec_run Proofs_run1 Proofs_run2 Proofs_run3 Proofs_run4 Proofs_run5 Proofs_run6 Spec_run2 Model_run2 Proofs_run7 Proofs_run8 Proofs_run9 Proofs_run10 Proofs_run11 Proofs_run12 Proofs_run13 Proofs_run14 Proofs_run15 Spec_run3 Proofs_run16
  Model_poisson Spec_poisson Spec_poisson2 Spec_poisson3 Model_run4 Spec_run6 Proofs_run30 Model_run5 Spec_run7.
From Verif Require Properties_interp Spec_linsys.
Open Scope Z_scope.

From Verif Require Model_streamer.
From Verif Require Import Spec_streamer.
From Verif Require Proofs_streamer Proofs_streamer2 Properties_streamer.

Lemma drift_zero : drift vzero = vzero.
Proof. unfold drift, vscal, vzero. cbn [px py pz]. f_equal; ring. Qed.
Lemma drift_law e v : (e = vzero -> v = vzero) -> (e <> vzero -> antiparallel v e) -> vlen v = drift_speed (vlen e / N_gas) -> v = drift e.
Proof.
  intros A B C. destruct (Req_dec (vlen e) 0) as [E|E].
  - assert (Q : e = vzero) by (apply Proofs_streamer.vlen_0; exact E). rewrite (A Q), Q, drift_zero. reflexivity.
  - assert (Q : e <> vzero) by (intros ->; apply E; exact Proofs_streamer.vlen_zero). destruct (B Q) as (k & Hk & ->). unfold drift. f_equal. rewrite Proofs_streamer.vlen_scal, Rabs_left in C by lra. rewrite <- C. field. exact E.
Qed.
Lemma ionisation_ok E : (0 <= E)%R -> Model_streamer.alpha_n E = ionisation (E / N_gas).
Proof.
  intros HE. unfold Model_streamer.alpha_n, ionisation. change Model_streamer.gas with N_gas. assert (HN : (0 < N_gas)%R) by (unfold N_gas; lra).
  destruct (Req_EM_T E 0) as [->|NE].
  - destruct (Rle_dec (0 / N_gas) 0) as [|X]; [reflexivity|]. exfalso. apply X. unfold Rdiv. lra.
  - assert (P : (0 < E / N_gas)%R) by (apply Rdiv_lt_0_compat; lra). destruct (Rle_dec (E / N_gas) 0) as [X|_]; [lra|].
    destruct (Rlt_dec (15 / 10000000000000000) (E / N_gas)) as [X|X], (Rle_dec (E / N_gas) (15 / 10000000000000000)) as [Y|Y]; try reflexivity; exfalso; lra.
Qed.

Section Rank34.
Context (dim : Z) (cells : list (list Z)) (nodes : list pt) (labels epart : list Z) (r : Z) (D : domain).
Hypothesis VM : valid_mesh dim cells nodes labels.
Hypothesis PA : part_of dim cells nodes labels epart r D.
Hypothesis CS : consistent dim D.
Notation gc := (gcell D).
Notation WF := (vm_mesh _ _ _ _ VM).
Notation nf := (zlen (dm_cellid D)).

(** a field at the faces of the rank *)
Definition at_faces (V : Z -> list Z -> pt) (x : list pt) : Prop := zlen x = nf /\ forall c f, iscell_of D c -> In f (nthZ [] (dm_faceid D) c) -> nthZ vzero x f = V (gc c) (fset D f).
Lemma rows34 : face_rows dim nf (dm_faceid D).
Proof.
  destruct (pa_sizes _ _ _ _ _ _ _ PA) as (_ & S2 & _ & SF & SC & _). intros c Hc. destruct (Proofs_run4.rows_ok dim cells nodes labels epart r D PA CS c) as (A & B); [unfold iscell_of; lia|]. split; [exact A|].
  intros f Hf. specialize (B f Hf). unfold isface in B. destruct (faces_count dim cells nodes labels epart r D PA CS) as (_ & _ & FC). lia.
Qed.
Lemma mean_bary V x c : at_faces V x -> iscell_of D c -> barycentre (map (nthZ vzero x) (nthZ [] (dm_faceid D) c)) = mean_velocity dim cells V (gc c).
Proof.
  intros (L & H) Hc. destruct (pa_sizes _ _ _ _ _ _ _ PA) as (_ & S2 & _ & SF & _). assert (Hc' : 0 <= c < zlen (dm_faceid D)) by (unfold iscell_of in Hc; lia).
  unfold barycentre, mean_velocity. rewrite zlen_map, (proj1 (rows34 c Hc')). f_equal. rewrite <- (Proofs_domain4.vsum_perm _ _ (Permutation_map (V (gc c)) (fset_row dim cells nodes labels epart r D VM PA CS c Hc))). rewrite map_map. f_equal. apply map_ext_in. intros f Hf. apply H; assumption.
Qed.
(** compute_velocity *)
Lemma velocity_rank E e old : at_faces E e -> zlen old = nf ->
  exists vf vc Ec, Model_streamer.compute_velocity e old (dm_faceid D) (dm_dim D) = Ok (vf, vc, Ec) /\ at_faces (fun c F => drift (E c F)) vf /\ zlen vc = zlen (dm_center D) /\ zlen Ec = zlen (dm_center D) /\
  forall c, iscell_of D c -> nthZ vzero vc c = mean_velocity dim cells (fun c F => drift (E c F)) (gc c) /\ nthZ vzero Ec c = mean_velocity dim cells E (gc c).
Proof.
  intros HE LO. pose proof HE as (LE & VE). rewrite (cs_dim _ _ CS). pose proof (wm_dim _ _ _ WF) as Hd. destruct (pa_sizes _ _ _ _ _ _ _ PA) as (_ & S2 & _ & SF & _).
  destruct (Properties_streamer.C47_drift_velocity dim e old (dm_faceid D)) as (vf & vc & Ec & E1 & L1 & L2 & L3 & F & C); [lia | lia | rewrite LE; exact rows34|].
  exists vf, vc, Ec. split; [exact E1|].
  assert (AV : at_faces (fun c F => drift (E c F)) vf).
  { split; [lia|]. intros c f Hc Hf. rewrite <- (VE c f Hc Hf). pose proof (proj2 (rows34 c ltac:(unfold iscell_of in Hc; lia)) f Hf) as Bf. destruct (F f ltac:(lia)) as (A1 & A2 & A3). exact (drift_law _ _ A1 A2 A3). }
  split; [exact AV|]. split; [lia|]. split; [lia|]. intros c Hc. destruct (C c ltac:(unfold iscell_of in Hc; lia)) as (C1 & C2). rewrite C1, C2. split; [apply mean_bary; assumption | apply mean_bary; assumption].
Qed.
(** the time step *)
Lemma timestep_rank (U E : Z -> pt) us Es cfl : zlen us = zlen (dm_center D) -> zlen Es = zlen (dm_center D) -> (0 < cfl)%R ->
  (forall c, iscell_of D c -> nthZ vzero us c = U (gc c) /\ nthZ vzero Es c = E (gc c)) ->
  let speed c := full_speed cells nodes (U c) (P3 (electron_diffusivity (E c) (U c)) 0 0) c in
  exists dt, Model_streamer.time_step_streamer us Es cfl (dm_normal D) (dm_mesure D) (dm_volume D) (dm_faceid D) (dm_dim D) = Ok (Some dt) /\ (0 < dt <= 1000000)%R /\
  (forall c, iscell_of D c -> E (gc c) <> vzero -> dt * speed (gc c) <= cfl * measure_of cells nodes (gc c))%R /\
  (dt = 1000000%R \/ exists c, iscell_of D c /\ E (gc c) <> vzero /\ (0 < speed (gc c))%R /\ (dt * speed (gc c) = cfl * measure_of cells nodes (gc c))%R).
Proof.
  intros LU LE HC HV speed. destruct (pa_sizes _ _ _ _ _ _ _ PA) as (_ & S2 & S3 & SF & _). rewrite (cs_dim _ _ CS).
  destruct (Properties_streamer.C61_time_step dim us Es (dm_normal D) (dm_mesure D) (dm_volume D) (dm_faceid D) cfl) as (dt & E1 & B & F & M); [apply (cs_timestep _ _ CS); exact LU | lia | exact HC|].
  assert (VO : forall c, iscell_of D c -> nthZ 0%R (dm_volume D) c = measure_of cells nodes (gc c)) by (intros c Hc; apply (pa_cell _ _ _ _ _ _ _ PA c Hc)).
  assert (SS : forall c, iscell_of D c -> streamer_speed us Es (dm_normal D) (dm_volume D) (dm_faceid D) c = speed (gc c)).
  { intros c Hc. unfold streamer_speed. rewrite (speed_with dim cells nodes labels epart r D VM PA CS us _ c Hc). destruct (HV c Hc) as (-> & ->). reflexivity. }
  exists dt. split; [exact E1|]. split; [exact B|]. split.
  - intros c Hc NE. destruct (F c ltac:(unfold iscell_of in Hc; lia)) as (_ & X); [rewrite (proj2 (HV c Hc)); exact NE|]. rewrite (SS c Hc), (VO c Hc) in X. exact X.
  - destruct M as [M|(c & Hc & NE & N & M)]; [left; exact M|right]. assert (Hc' : iscell_of D c) by (unfold iscell_of; lia). destruct (F c Hc NE) as (W0 & _). rewrite (SS c Hc') in *. rewrite (VO c Hc') in M. rewrite (proj2 (HV c Hc')) in NE.
    exists c. split; [exact Hc'|]. split; [exact NE|]. split; [lra|]. rewrite M. field. lra.
Qed.
(** ionisation *)
Lemma source_rank (U E : Z -> pt) (X : Z -> R) w us Es : zlen w = zlen (dm_center D) -> zlen us = zlen (dm_center D) -> zlen Es = zlen (dm_center D) ->
  (forall c, iscell_of D c -> nthZ 0%R w c = X (gc c) /\ nthZ vzero us c = U (gc c) /\ nthZ vzero Es c = E (gc c)) ->
  exists src, Model_streamer.source_streamer w us Es (dm_center D) 0 = Ok src /\ zlen src = zlen (dm_center D) /\
  forall c, iscell_of D c -> nthZ (0, 0)%R src c = (pairs (E (gc c)) (U (gc c)) (X (gc c)), pairs (E (gc c)) (U (gc c)) (X (gc c))).
Proof.
  intros LW LU LE HV. destruct (pa_sizes _ _ _ _ _ _ _ PA) as (_ & S2 & _). unfold Model_streamer.source_streamer.
  destruct (Proofs_streamer.mapM_list (fun i => do c <- get (dm_center D) i; do e <- get Es i; do v <- get us i; do x <- get w i;
    let S := (Model_streamer.alpha_n (Model_streamer.norm3 e) * Model_streamer.norm3 v * x * Model_streamer.gas + Model_streamer.branch_source 0 c)%R in ret (S, S))
    (fun c => (pairs (E (gc c)) (U (gc c)) (X (gc c)), pairs (E (gc c)) (U (gc c)) (X (gc c)))) (0, 0)%R (zlen w) (zlen_nonneg _)) as (src & E1 & L1 & V1).
  { intros i Hi. rewrite (get_nthZ vzero (dm_center D)) by lia. cbn [bind]. rewrite (get_nthZ vzero Es) by lia. cbn [bind]. rewrite (get_nthZ vzero us) by lia. cbn [bind]. rewrite (get_nthZ 0%R w) by lia. cbn [bind]. cbv zeta.
    destruct (HV i ltac:(unfold iscell_of; lia)) as (-> & -> & ->). rewrite !Proofs_streamer.norm3_vlen. rewrite (ionisation_ok _ (Proofs_streamer.vlen_nonneg _)). change Model_streamer.gas with N_gas. unfold pairs.
    change (Model_streamer.branch_source 0 (nthZ vzero (dm_center D) i)) with 0%R. rewrite Rplus_0_r. reflexivity. }
  exists src. split; [exact E1|]. split; [lia|]. intros c Hc. apply V1. unfold iscell_of in Hc. lia.
Qed.
(** diffusion *)
Lemma dissipative_rank (E G : Z -> list Z -> pt) e vf g : at_faces E e -> at_faces (fun c F => drift (E c F)) vf -> at_faces G g ->
  exists dis, Model_streamer.dissipative_streamer vf e g (dm_cellid D) (dm_normal D) (dm_name D) (zlen (dm_center D)) = Ok dis /\ zlen dis = zlen (dm_center D) /\
  forall c, iscell_of D c -> let c' := gc c in
    nthZ 0%R dis c = rsum (map (fun F => let K := electron_diffusivity (E c' F) (drift (E c' F)) in diffused cells nodes (P3 K K K) (G c' F) c' F) (facets (cell cells c'))).
Proof.
  intros (LE & HE) (LV & HV) (LG & HG). destruct (cs_fv _ _ CS) as (WFV & WL). destruct (pa_sizes _ _ _ _ _ _ _ PA) as (_ & S2 & _).
  destruct (Properties_streamer.C48_diffusion_conservative dim (dom_fv D) vf e g WFV LG LE LV) as (dis & ED & LD & VD & _). cbn [dom_fv fv_cellid fv_normal fv_name fv_centerc] in ED, LD, VD. fold (dom_fv D) in VD.
  exists dis. split; [exact ED|]. split; [exact LD|]. intros c Hc. cbv zeta. rewrite VD by (unfold iscell_of in Hc; lia).
  rewrite <- (rsum_perm _ _ (Permutation_map _ (cs_each_face_once _ _ CS))). apply (sum_faces dim cells nodes labels epart r D VM PA CS); [exact Hc|]. intros f Hf.
  set (K := electron_diffusivity (nthZ vzero e f) (nthZ vzero vf f)).
  transitivity (leaves (dom_fv D) (diffusion (dom_fv D) g (P3 K K K)) c f).
  { unfold leaves. assert (Q : electron_diffusion (dom_fv D) vf e g f = diffusion (dom_fv D) g (P3 K K K) f); [|rewrite Q; reflexivity].
    unfold electron_diffusion, diffusion. fold K. unfold vdot. cbn [px py pz]. ring. }
  rewrite (diffused_face dim cells nodes labels epart r D VM PA CS _ g c f Hc Hf). unfold K. rewrite (HE c f Hc Hf), (HV c f Hc Hf), (HG c f Hc Hf). reflexivity.
Qed.
(** the update *)
Lemma advance_rank_ok bc vs dt (X XI : Z -> R) (E G : Z -> list Z -> pt) (C : Z -> list Z -> R) (Q : Z -> R) w v ni rez vf e g src :
  vfull (dom_bc D) bc vs w v -> zlen w = zlen (dm_center D) -> zlen ni = zlen (dm_center D) -> zlen rez = zlen (dm_center D) -> zlen src = zlen (dm_center D) ->
  (forall c, iscell_of D c -> nthZ 0%R w c = X (gc c) /\ nthZ 0%R ni c = XI (gc c)) ->
  (forall c, iscell_of D c -> nthZ 0%R rez c = (- rsum (map (C (gc c)) (facets (cell cells (gc c)))))%R) -> (forall c, iscell_of D c -> nthZ (0, 0)%R src c = (Q (gc c), Q (gc c))) ->
  at_faces E e -> at_faces (fun c F => drift (E c F)) vf -> at_faces G g ->
  exists v' w' ni', advance_streamer dt D v ni rez vf e g src = Ok (v', ni') /\ vfull (dom_bc D) bc vs w' v' /\ zlen w' = zlen (dm_loctoglob D) /\ zlen ni' = zlen (dm_loctoglob D) /\
  forall c, iscell_of D c -> let c' := gc c in
    nthZ 0%R w' c = (X c' + dt * (rsum (map (fun F => let K := electron_diffusivity (E c' F) (drift (E c' F)) in diffused cells nodes (P3 K K K) (G c' F) c' F - C c' F) (facets (cell cells c'))) / measure_of cells nodes c' + Q c'))%R /\
    nthZ 0%R ni' c = (XI c' + dt * Q c')%R.
Proof.
  intros FV LW LI LR LS HW HR HS HE HVf HG. destruct (pa_sizes _ _ _ _ _ _ _ PA) as (_ & S2 & S3 & _). unfold advance_streamer. cbv zeta.
  destruct (dissipative_rank E G e vf g HE HVf HG) as (dis & ED & LD & VD). rewrite ED. cbn [bind]. rewrite (full_cell _ _ _ _ _ FV). cbn [bind].
  assert (Z0 : zlen (zeros_like 0%R (zlen (dm_center D))) = zlen (dm_center D)) by (apply zlen_zeros_like, zlen_nonneg).
  destruct (Proofs_streamer.update_streamer_ok w ni rez (zeros_like 0%R (zlen (dm_center D))) dis (zeros_like 0%R (zlen (dm_center D))) src dt (dm_volume D)) as (new & EN & LN & VN); [lia | lia | lia | lia | lia | lia | lia | |].
  { intros c Hc. pose proof (proj2 (proj2 (proj2 (pa_cell _ _ _ _ _ _ _ PA c ltac:(unfold iscell_of; lia))))). lra. }
  rewrite EN. cbn [bind].
  destruct (known_ok 0%R (map fst new) (fun c x => nthZ None (map fst new) c = Some x)) as (w' & EK & LK & HKn). { intros c Hc. rewrite zlen_map in Hc. rewrite (nthZ_map _ (None, None)) by lia. rewrite (VN c) by lia. cbn [fst]. eexists. split; reflexivity. }
  destruct (known_ok 0%R (map snd new) (fun c x => nthZ None (map snd new) c = Some x)) as (n' & EK2 & LK2 & HKn2). { intros c Hc. rewrite zlen_map in Hc. rewrite (nthZ_map _ (None, None)) by lia. rewrite (VN c) by lia. cbn [snd]. eexists. split; reflexivity. }
  rewrite EK. cbn [bind]. rewrite EK2. cbn [bind]. rewrite zlen_map in LK, LK2, HKn, HKn2. rewrite (full_ref _ _ _ _ _ FV). destruct (full_write (dom_bc D) bc vs w v 0 w' FV) as (v' & EW & FV' & _); [lia | |].
  { destruct (wb_size _ (cs_bc _ _ CS)) as (QQ & _). change (nthZ [] (vs_heap (init_state (dom_bc D))) 0) with (zeros_like 0%R (bd_nbcells (dom_bc D))). rewrite zlen_zeros_like by exact QQ. cbn [dom_bc bd_nbcells]. lia. }
  cbn [Z.eqb] in FV'. rewrite EW. cbn [bind]. exists v', w', n'. split; [reflexivity|]. split; [exact FV'|]. split; [lia|]. split; [lia|]. intros c Hc. cbv zeta. set (c' := gc c). assert (Hc0 : 0 <= c < zlen w) by (unfold iscell_of in Hc; lia).
  specialize (HKn c ltac:(lia)). cbv beta in HKn. rewrite (nthZ_map _ (None, None)) in HKn by lia. rewrite (VN c Hc0) in HKn. cbn [fst] in HKn. injection HKn as <-.
  specialize (HKn2 c ltac:(lia)). cbv beta in HKn2. rewrite (nthZ_map _ (None, None)) in HKn2 by lia. rewrite (VN c Hc0) in HKn2. cbn [snd] in HKn2. injection HKn2 as <-.
  destruct (HW c Hc) as (-> & ->). rewrite (HR c Hc), (VD c Hc), (HS c Hc), nthZ_zeros_like by lia. cbn [fst snd]. fold c'. replace (nthZ 0%R (dm_volume D) c) with (measure_of cells nodes c') by (symmetry; apply (pa_cell _ _ _ _ _ _ _ PA c Hc)).
  split; [|unfold Rdiv; rewrite Rplus_0_l, Rmult_0_l; ring].
  f_equal. f_equal. f_equal. f_equal. cbv zeta. rewrite <- rsum_map_opp, <- rsum_map_add. apply rsum_map_ext. intros F _. ring.
Qed.
End Rank34.
