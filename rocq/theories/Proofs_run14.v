(** * Proofs_run14: the complete transport loop on all the ranks. *)
From Coq Require Import Reals Lra Permutation Sorted.
From Verif Require Import Py PyLemmas Model_part Spec_part Model_label Model_conn Spec_conn Proofs_conn1 Proofs_conn2 Model_geom Spec_geom Proofs_geom1 Proofs_geom2 Proofs_geom3
  Model_halo Spec_halo Model_interp Spec_interp Proofs_interp4 Proofs_interp5 Proofs_interp6 Spec_lsq Proofs_lsq Properties_lsq Model_fvm Spec_fvm Proofs_fvm1 Proofs_fvm2 Properties_fvm Model_bc Spec_bc Spec_bc3 Proofs_label Proofs_bc Proofs_bc2 Proofs_bc3 Properties_bc3 Model_domain Spec_domain Proofs_domain1 Proofs_domain4
  Model_comm Model_parallel Spec_parallel Proofs_parallel1 Proofs_parallel6 Properties_parallel Model_run Spec_run Proofs_run1 Proofs_run2 Proofs_run3 Proofs_run4 Proofs_run5 Proofs_run6 Spec_run2 Model_run2 Proofs_run7 Proofs_run8 Proofs_run9 Proofs_run10 Proofs_run11 Proofs_run12 Proofs_run13.
Open Scope Z_scope.

Lemma largest_full_unique cells nodes U K cfl a b : largest_full cells nodes U K cfl a -> largest_full cells nodes U K cfl b -> a = b.
Proof. intros (A1 & A2) (B1 & B2). apply Rle_antisym; [apply B2; exact A1 | apply A2; exact B1]. Qed.
Lemma speed_nonneg cells nodes U K c : (0 <= px K + py K + pz K)%R -> (0 < measure_of cells nodes c)%R -> (0 <= full_speed cells nodes U K c)%R.
Proof.
  intros HK HM. unfold full_speed. apply rsum_map_nonneg. intros F _. apply Rplus_le_le_0_compat; [apply Rabs_pos|]. unfold Rdiv. apply Rmult_le_pos; [|left; apply Rinv_0_lt_compat; exact HM]. apply Rmult_le_pos; [exact HK|].
  destruct (outward cells nodes c F) as [x y z]. unfold vdot. cbn [px py pz]. nra.
Qed.

Section Rank14.
Context (dim : Z) (cells : list (list Z)) (nodes : list pt) (labels epart : list Z) (r : Z) (D : domain).
Hypothesis VM : valid_mesh dim cells nodes labels.
Hypothesis PA : part_of dim cells nodes labels epart r D.
Hypothesis CS : consistent dim D.
Notation gc := (gcell D).
Lemma full_speed_ok U K c : iscell_of D c -> wave_speed (zeros_like U (zlen (dm_center D))) (dm_normal D) (dm_volume D) (dm_faceid D) K c = full_speed cells nodes U K (gc c).
Proof.
  intros Hc. unfold wave_speed, full_speed. destruct (pa_sizes _ _ _ _ _ _ _ PA) as (_ & S2 & _). pose proof Hc as Hc'. unfold iscell_of in Hc'.
  rewrite <- (rsum_perm _ _ (Permutation_map _ (fset_row dim cells nodes labels epart r D VM PA CS c Hc))). rewrite map_map. apply rsum_map_ext. intros f Hf. cbv zeta.
  assert (EU : nthZ vzero (zeros_like U (zlen (dm_center D))) c = U) by (unfold zeros_like; rewrite (nthZ_map _ 0) by (rewrite zlen_range; lia); reflexivity). rewrite EU.
  replace (nthZ 0%R (dm_volume D) c) with (measure_of cells nodes (gc c)) by (symmetry; apply (pa_cell _ _ _ _ _ _ _ PA c Hc)).
  destruct (normal_sign dim cells nodes labels epart r D VM PA CS c f Hc Hf) as [-> | ->]; [reflexivity|]. set (o := outward cells nodes (gc c) (fset D f)).
  replace (vdot U (vscal (-1) o)) with (- vdot U o)%R by (unfold vdot, vscal; cbn [px py pz]; ring). replace (vdot (vscal (-1) o) (vscal (-1) o)) with (vdot o o) by (unfold vdot, vscal; cbn [px py pz]; ring). rewrite Rabs_Ropp. reflexivity.
Qed.
Lemma full_timestep_ok U K cfl : (0 < cfl)%R -> (0 <= px K + py K + pz K)%R ->
  exists dt, time_step (dm_dim D) (zeros_like U (zlen (dm_center D))) (dm_normal D) cfl (dm_mesure D) (dm_volume D) (dm_faceid D) K = Ok (Some dt) /\ (0 < dt <= 1000000)%R /\
  (forall c, iscell_of D c -> dt * full_speed cells nodes U K (gc c) <= cfl * measure_of cells nodes (gc c))%R /\
  (dt = 1000000%R \/ exists c, iscell_of D c /\ (0 < full_speed cells nodes U K (gc c))%R /\ (dt * full_speed cells nodes U K (gc c) = cfl * measure_of cells nodes (gc c))%R).
Proof.
  intros HC HK. destruct (pa_sizes _ _ _ _ _ _ _ PA) as (_ & S2 & S3 & SF & _). rewrite (cs_dim _ _ CS).
  destruct (C33_time_step dim (zeros_like U (zlen (dm_center D))) (dm_normal D) cfl (dm_mesure D) (dm_volume D) (dm_faceid D) K) as (dt & E & B & F & M); [apply (cs_timestep _ _ CS); apply zlen_zeros_like, zlen_nonneg | exact HC | exact HK|].
  assert (VO : forall c, iscell_of D c -> nthZ 0%R (dm_volume D) c = measure_of cells nodes (gc c)) by (intros c Hc; apply (pa_cell _ _ _ _ _ _ _ PA c Hc)).
  exists dt. split; [exact E|]. split; [exact B|]. split.
  - intros c Hc. destruct (F c ltac:(rewrite SF; exact Hc)) as ((_ & X) & _). rewrite (full_speed_ok U K c Hc), (VO c Hc) in X. exact X.
  - destruct M as [M|(c & Hc & N & M)]; [left; exact M|right]. assert (Hc' : iscell_of D c) by (unfold iscell_of; rewrite <- SF; exact Hc). destruct (F c Hc) as ((W0 & _) & _). rewrite (full_speed_ok U K c Hc') in *. rewrite (VO c Hc') in M.
    exists c. split; [exact Hc'|]. split; [lra|]. rewrite M. field. lra.
Qed.
End Rank14.

Section Ranks14.
Context (dim SIZE : Z) (cells : list (list Z)) (nodes : list pt) (labels npart0 epart : list Z) (st : setting).
Hypothesis VM : valid_mesh dim cells nodes labels.
Hypothesis PL : dim = 2 -> planar nodes.
Hypothesis VS : valid_split dim SIZE cells nodes npart0 epart.
Notation Ds := (se_domains st).
Notation Dr := (domain_of (se_domains st)).
Hypothesis RP : represents dim SIZE cells nodes labels epart Ds.
Hypothesis SC : star_connected dim cells.
Hypothesis CS : forall r, 0 <= r < SIZE -> consistent dim (Dr r).
Hypothesis HX : 1 < SIZE -> forall (V : Type) (d : V) (X : Z -> V) (w : list (list V)), values_of d SIZE Ds X w -> exists halo, update_halo_value SIZE (se_comms st) w = Ok halo /\ halo_values_of d SIZE Ds X halo.
Context (bc : list (loc * bctype)) (vs : list (loc * bcval)).
Hypothesis BV : bc_valid dim bc vs.
Hypothesis CW : corners_whole dim cells labels bc epart.
Hypothesis SP : spanned dim cells nodes.
Notation PAr := (rp_part _ _ _ _ _ _ _ RP).
Notation sees := (sees dim SIZE cells nodes labels Ds bc vs).
Notation shows := (shows dim SIZE cells nodes labels st bc vs).
Notation holds := (holds SIZE st bc vs).
Notation sizes := (Proofs_run5.sizes dim SIZE cells nodes labels epart st RP).
Notation owners := (owners11 dim SIZE cells nodes npart0 epart VS).
Notation size1 := (size11 dim SIZE cells nodes npart0 epart VS).


Context (order : Z) (U K : pt) (cfl : R).
Hypothesis HCFL : (0 < cfl)%R.
Hypothesis HK : (0 <= px K + py K + pz K)%R.
Notation dom r Hr := (dom11 dim SIZE cells nodes labels epart st RP r Hr).

Lemma full_min_step dts : zlen dts = SIZE -> (forall r, 0 <= r < SIZE -> exists o, get dts r = Ok o /\ exists dt, o = Some dt /\ (0 < dt <= 1000000)%R /\
     (forall c, iscell_of (Dr r) c -> dt * full_speed cells nodes U K (gcell (Dr r) c) <= cfl * measure_of cells nodes (gcell (Dr r) c))%R /\
     (dt = 1000000%R \/ exists c, iscell_of (Dr r) c /\ (0 < full_speed cells nodes U K (gcell (Dr r) c))%R /\ (dt * full_speed cells nodes U K (gcell (Dr r) c) = cfl * measure_of cells nodes (gcell (Dr r) c))%R)) ->
  exists dt, allreduce_min dts = Some dt /\ (0 < dt)%R /\ largest_full cells nodes U K cfl dt.
Proof.
  intros LD HD0. pose proof size1 as S1.
  assert (HD : forall r, 0 <= r < SIZE -> exists dt, nthZ None dts r = Some dt /\ (0 < dt <= 1000000)%R /\
     (forall c, iscell_of (Dr r) c -> dt * full_speed cells nodes U K (gcell (Dr r) c) <= cfl * measure_of cells nodes (gcell (Dr r) c))%R /\
     (dt = 1000000%R \/ exists c, iscell_of (Dr r) c /\ (0 < full_speed cells nodes U K (gcell (Dr r) c))%R /\ (dt * full_speed cells nodes U K (gcell (Dr r) c) = cfl * measure_of cells nodes (gcell (Dr r) c))%R)).
  { intros r Hr. destruct (HD0 r Hr) as (o & Eo & dt & -> & H). rewrite (get_nthZ None) in Eo by lia. injection Eo as Eo. exists dt. split; [exact Eo | exact H]. }
  destruct (allreduce_ok dts) as (dt & E & (i & Hi & Ei) & ML); [lia | intros j Hj; destruct (HD j ltac:(lia)) as (x & Ex & _); exists x; exact Ex|].
  exists dt. split; [exact E|]. destruct (HD i ltac:(lia)) as (dt' & E' & B & F & M). rewrite Ei in E'. injection E' as <-. split; [lra|]. split.
  - split; [lra|]. intros c Hc. destruct (rank_of dim SIZE cells nodes labels npart0 epart st VS RP c Hc) as (r & a & Hr & Ha & <-).
    destruct (HD r Hr) as (dr & Er & Br & Fr & _). pose proof (ML r dr ltac:(lia) Er) as LE. specialize (Fr a Ha). eapply Rle_trans; [|exact Fr]. apply Rmult_le_compat_r; [|exact LE].
    apply speed_nonneg; [exact HK|]. pose proof (pa_cell _ _ _ _ _ _ _ (PAr r Hr) a Ha) as (_ & _ & MV & MP). unfold measure_of. rewrite <- MV. exact MP.
  - intros d (D1 & D2). destruct M as [->|(a & Ha & S0 & ES)]; [exact D1|]. specialize (D2 (gcell (Dr i) a) ltac:(exact (proj1 (gcell_owned dim cells nodes labels epart i (Dr i) (PAr i ltac:(lia)) a Ha)))). rewrite <- ES in D2. apply (Rmult_le_reg_r _ _ _ S0 D2).
Qed.

(** convection on a rank *)
Lemma convective_rank_ok r X v W Sl Ps G : 0 <= r < SIZE -> arrays v = Ok W -> sees r X W -> (forall c, iscell cells c -> gradient dim (Sl c)) ->
  zlen (gr_cell G) = zlen (dm_loctoglob (Dr r)) /\ zlen (gr_psi G) = zlen (dm_loctoglob (Dr r)) /\ zlen (gr_halo G) = zlen (dm_hext (Dr r)) /\ zlen (gr_psih G) = zlen (dm_hext (Dr r)) ->
  (forall c, iscell_of (Dr r) c -> nthZ vzero (gr_cell G) c = Sl (gcell (Dr r) c) /\ nthZ 0%R (gr_psi G) c = Ps (gcell (Dr r) c)) ->
  (forall h, ishalo_of (Dr r) h -> nthZ vzero (gr_halo G) h = Sl (ghalo (Dr r) h) /\ nthZ 0%R (gr_psih G) h = Ps (ghalo (Dr r) h)) ->
  exists rez, convective_rank order U (Dr r) v G = Ok rez /\ zlen rez = zlen (dm_center (Dr r)) /\
  forall c, iscell_of (Dr r) c -> nthZ 0%R rez c = (- rsum (map (carried dim cells nodes labels bc vs order U X Sl Ps (gcell (Dr r) c)) (facets (cell cells (gcell (Dr r) c)))))%R.
Proof.
  intros Hr EA SE HG (Z1 & Z2 & Z3 & Z4) HC HHl. unfold convective_rank. rewrite EA. cbn [bind]. rewrite (cs_dim _ _ (CS r Hr)). set (D := Dr r) in *. pose proof (PAr r Hr) as PA. pose proof (CS r Hr) as CSr. fold D in PA, CSr.
  destruct (sizes r Hr) as (SZ1 & SZ2). fold D in SZ1, SZ2. destruct (cs_fv _ _ CSr) as (WFV & WL). destruct (se_wf _ _ _ _ _ _ _ _ _ _ _ SE) as (W1 & W2 & W3 & _). fold D in W1, W2, W3. set (A := {| ad_c := w_c W |}).
  assert (WA : wf_advected (dom_fv D) A (zeros_like U (zlen (dm_cellid D)))). { unfold wf_advected, A. cbn [ad_c ad_grad ad_psi ad_halo ad_gradh ad_psih ad_ghost dom_fv fv_centerc fv_centerh fv_cellid]. rewrite zlen_zeros_like by apply zlen_nonneg. repeat (split; [lia|]). reflexivity. }
  destruct (C29_convection_conservative dim order (dom_fv D) (dom_lists D) A _ WFV WL WA) as (rez & ER & LR & VR & _). cbn [dom_fv fv_centerc] in LR, VR. change (fv_centerc (dom_fv D)) with (dm_center D) in ER. exists rez. split; [exact ER|]. split; [exact LR|].
  intros c Hc. fold (dom_fv D) in VR. rewrite VR by (unfold iscell_of in Hc; lia). f_equal. apply (sum_faces dim cells nodes labels epart r D VM PA CSr); [exact Hc|]. intros f Hf.
  apply (carried_face dim cells nodes labels epart r D VM PA CSr bc vs X order U Sl Ps A); [| exact HG | | | | exact Hc | exact Hf].
  - intros f' Hf'. unfold isface in Hf'. unfold zeros_like. destruct (faces_count dim cells nodes labels epart r D PA CSr) as (_ & _ & FC). rewrite (nthZ_map _ 0) by (rewrite zlen_range; lia). reflexivity.
  - intros c' Hc'. unfold A. cbn [ad_c ad_grad ad_psi]. destruct (HC c' Hc'). split; [exact (se_cell _ _ _ _ _ _ _ _ _ _ _ SE c' Hc')|]. auto.
  - intros h Hh. unfold A. cbn [ad_halo ad_gradh ad_psih]. destruct (HHl h Hh). split; [exact (se_halo _ _ _ _ _ _ _ _ _ _ _ SE h Hh)|]. auto.
  - unfold A. cbn [ad_ghost]. exact (se_ghost _ _ _ _ _ _ _ _ _ _ _ SE).
Qed.
(** diffusion and update on a rank *)
Lemma update_rank_ok r X w v dt rez g C G : 0 <= r < SIZE -> vfull (dom_bc (Dr r)) bc vs w v -> zlen w = zlen (dm_loctoglob (Dr r)) -> (forall c, iscell_of (Dr r) c -> nthZ 0%R w c = X (gcell (Dr r) c)) ->
  zlen rez = zlen (dm_center (Dr r)) -> (forall c, iscell_of (Dr r) c -> nthZ 0%R rez c = (- rsum (map (C (gcell (Dr r) c)) (facets (cell cells (gcell (Dr r) c)))))%R) ->
  zlen g = zlen (dm_cellid (Dr r)) -> (forall c f, iscell_of (Dr r) c -> In f (nthZ [] (dm_faceid (Dr r)) c) -> nthZ vzero g f = G (gcell (Dr r) c) (fset (Dr r) f)) ->
  exists v' w', update_rank K dt (Dr r) v rez g = Ok v' /\ vfull (dom_bc (Dr r)) bc vs w' v' /\ zlen w' = zlen (dm_loctoglob (Dr r)) /\
  forall c, iscell_of (Dr r) c -> let c' := gcell (Dr r) c in nthZ 0%R w' c = (X c' + dt / measure_of cells nodes c' * rsum (map (fun F => diffused cells nodes K (G c' F) c' F - C c' F) (facets (cell cells c'))))%R.
Proof.
  intros Hr FV LW HW LR HR LG HG. unfold update_rank. cbv zeta. set (D := Dr r) in *. pose proof (PAr r Hr) as PA. pose proof (CS r Hr) as CSr. fold D in PA, CSr. destruct (sizes r Hr) as (SZ1 & SZ2). fold D in SZ1, SZ2. destruct (cs_fv _ _ CSr) as (WFV & WL).
  destruct (pa_sizes _ _ _ _ _ _ _ PA) as (_ & S2 & S3 & _).
  destruct (C30_diffusion_conservative dim (dom_fv D) g K WFV LG) as (dis & ED & LD & VD & _). cbn [dom_fv fv_cellid fv_normal fv_name fv_centerc] in ED, LD, VD. fold (dom_fv D) in VD. rewrite ED. cbn [bind]. rewrite (full_cell _ _ _ _ _ FV). cbn [bind].
  assert (DIS : forall c, iscell_of D c -> nthZ 0%R dis c = rsum (map (fun F => diffused cells nodes K (G (gcell D c) F) (gcell D c) F) (facets (cell cells (gcell D c))))).
  { intros c Hc. rewrite VD by (unfold iscell_of in Hc; lia). rewrite <- (rsum_perm _ _ (Permutation_map _ (cs_each_face_once _ _ CSr))). apply (sum_faces dim cells nodes labels epart r D VM PA CSr); [exact Hc|]. intros f Hf. rewrite (diffused_face dim cells nodes labels epart r D VM PA CSr K g c f Hc Hf). rewrite (HG c f Hc Hf). reflexivity. }
  assert (Z0 : zlen (zeros_like 0%R (zlen (dm_center D))) = zlen (dm_center D)) by (apply zlen_zeros_like, zlen_nonneg).
  destruct (Proofs_fvm2.update_ok w rez dis (zeros_like 0%R (zlen (dm_center D))) (dm_volume D) dt) as (new & EN & LN & VN); [lia | lia | lia | lia | |].
  { intros c Hc. pose proof (proj2 (proj2 (proj2 (pa_cell _ _ _ _ _ _ _ PA c ltac:(unfold iscell_of; lia))))). lra. }
  rewrite EN. cbn [bind]. destruct (known_ok 0%R new (fun c x => nthZ None new c = Some x)) as (w' & EK & LK & HKn). { intros c Hc. rewrite (VN c) by lia. eexists. split; reflexivity. }
  rewrite EK. cbn [bind]. rewrite (full_ref _ _ _ _ _ FV). destruct (full_write (dom_bc D) bc vs w v 0 w' FV) as (v' & EW & FV' & _); [lia | |].
  { destruct (wb_size _ (cs_bc _ _ CSr)) as (Q & _). change (nthZ [] (vs_heap (init_state (dom_bc D))) 0) with (zeros_like 0%R (bd_nbcells (dom_bc D))). rewrite zlen_zeros_like by exact Q. cbn [dom_bc bd_nbcells]. lia. }
  cbn [Z.eqb] in FV'. exists v', w'. split; [exact EW|]. split; [exact FV'|]. split; [lia|]. intros c Hc. set (c' := gcell D c). assert (Hc0 : 0 <= c < zlen w) by (unfold iscell_of in Hc; lia). specialize (HKn c ltac:(lia)). cbv beta in HKn. rewrite (VN c Hc0) in HKn. injection HKn as <-.
  rewrite (HW c Hc), (HR c Hc), (DIS c Hc), nthZ_zeros_like by lia. fold c'. replace (nthZ 0%R (dm_volume D) c) with (measure_of cells nodes c') by (symmetry; apply (pa_cell _ _ _ _ _ _ _ PA c Hc)).
  replace (rsum (map (fun F => diffused cells nodes K (G c' F) c' F - C c' F) (facets (cell cells c'))))%R with (rsum (map (fun F => diffused cells nodes K (G c' F) c' F) (facets (cell cells c'))) + - rsum (map (C c') (facets (cell cells c'))))%R; [unfold Rdiv; ring|].
  rewrite <- rsum_map_opp, <- rsum_map_add. apply rsum_map_ext. intros F _. ring.
Qed.

(** the states of the ranks *)
Definition full_state (X : Z -> R) (hs : list full_held) : Prop := zlen hs = SIZE /\ holds X (map fh_ne hs) /\ forall r, 0 <= r < SIZE -> exists s, get hs r = Ok s /\ vel_ok (Dr r) (fh_vel s) /\ zlen (fh_face s) = zlen (dm_cellid (Dr r)).
Lemma get_map {A B} (g : A -> B) l r a : get l r = Ok a -> 0 <= r < zlen l -> get (map g l) r = Ok (g a).
Proof. intros E Hr. rewrite (get_nthZ a) in E by exact Hr. injection E as E. rewrite (get_nthZ (g a)) by (rewrite zlen_map; exact Hr). rewrite (nthZ_map _ a) by exact Hr. rewrite E. reflexivity. Qed.

Lemma full_start_ok X w0 : values_of 0%R SIZE Ds X w0 -> exists hs, full_start bc vs SIZE st w0 = Ok hs /\ full_state X hs.
Proof.
  intros HV. pose proof size1 as S1. pose proof HV as (LW & HV'). unfold full_start.
  destruct (mapM_ranks (fun r => do D <- get Ds r; do w <- get w0 r; do v <- new_variable (dom_bc D) (Some bc) (Some vs); do v <- write_array v (va_cell v) w;
                 let z := zeros_like 0%R (zlen (dm_center D)) in ret {| fh_ne := v; fh_vel := (z, z, z); fh_face := zeros_like p0 (zlen (dm_cellid D)) |})
    (fun r s => vfull (dom_bc (Dr r)) bc vs (nthZ [] w0 r) (fh_ne s) /\ vel_ok (Dr r) (fh_vel s) /\ zlen (fh_face s) = zlen (dm_cellid (Dr r))) SIZE ltac:(lia)) as (hs & E & LH & HH).
  - intros r Hr. rewrite (dom r Hr). cbn [bind]. rewrite (get_nthZ []) by lia. cbn [bind]. pose proof (settings11 dim SIZE cells nodes labels epart st VM RP CS bc vs BV r Hr) as SO. pose proof (cs_bc _ _ (CS r Hr)) as WB.
    destruct (full_new (dom_bc (Dr r)) bc vs WB (distinct11 dim SIZE cells nodes labels epart st RP CS r Hr) SO) as (v & Ev & FV). rewrite Ev. cbn [bind]. rewrite (full_ref _ _ _ _ _ FV). destruct (wb_size _ WB) as (Q & _).
    destruct (full_write (dom_bc (Dr r)) bc vs _ v 0 (nthZ [] w0 r) FV) as (v' & EW & FV' & _); [lia | change (nthZ [] (vs_heap (init_state (dom_bc (Dr r)))) 0) with (zeros_like 0%R (bd_nbcells (dom_bc (Dr r)))); rewrite zlen_zeros_like by exact Q; cbn [dom_bc bd_nbcells]; rewrite (proj1 (HV' r Hr)); symmetry; apply sizes; exact Hr|].
    rewrite EW. cbn [bind]. cbv zeta. eexists. split; [reflexivity|]. cbn [fh_ne fh_vel fh_face]. split; [exact FV'|]. split; [unfold vel_ok; cbn [fst snd]; rewrite !zlen_zeros_like by apply zlen_nonneg; auto | apply zlen_zeros_like, zlen_nonneg].
  - exists hs. split; [exact E|]. split; [exact LH|]. split.
    + exists w0. split; [rewrite zlen_map; exact LH|]. split; [exact HV|]. intros r Hr. destruct (HH r Hr) as (s & Es & _ & FV & _). exists (fh_ne s). split; [apply get_map; [exact Es | lia] | exact FV].
    + intros r Hr. destruct (HH r Hr) as (s & Es & _ & _ & Q). exists s. split; [exact Es | exact Q].
Qed.

Lemma full_turn_ok X hs : full_state X hs -> exists dt hs' Y, full_turn order U K cfl SIZE st hs = Ok (dt, hs') /\ (0 < dt)%R /\ largest_full cells nodes U K cfl dt /\
  full_step dim cells nodes labels bc vs order U K dt X Y /\ full_state Y hs' /\ shows Y (map fh_ne hs') /\ node_values dim SIZE cells nodes labels st bc vs Y (map fh_ne hs').
Proof.
  intros (LH & HO & HR). pose proof size1 as S1. unfold full_turn.
  destruct (mapM_ranks (fun r => do D <- get Ds r; do s <- get hs r; cell_velocity U D (fh_vel s)) (fun r u => vel_ok (Dr r) u /\ components (fst (fst u)) (snd (fst u)) (snd u) = zeros_like U (zlen (dm_center (Dr r)))) SIZE ltac:(lia)) as (vel & EV & LV & VV).
  { intros r Hr. rewrite (dom r Hr). cbn [bind]. destruct (HR r Hr) as (s & Es & VO & _). rewrite Es. cbn [bind]. apply (velocity_ok dim cells nodes labels epart r (Dr r) VM (PAr r Hr) (CS r Hr) U _ VO). }
  rewrite EV. cbn [bind].
  destruct (update_values_full dim SIZE cells nodes labels npart0 epart st VM PL VS RP CS HX bc vs BV CW X _ HO) as (nes & EN & HN). rewrite EN. cbn [bind].
  destruct (mapM_ranks (fun r => do D <- get Ds r; do u <- get vel r;
                  time_step (dm_dim D) (components (fst (fst u)) (snd (fst u)) (snd u)) (dm_normal D) cfl (dm_mesure D) (dm_volume D) (dm_faceid D) K)
     (fun r o => exists dt, o = Some dt /\ (0 < dt <= 1000000)%R /\
     (forall c, iscell_of (Dr r) c -> dt * full_speed cells nodes U K (gcell (Dr r) c) <= cfl * measure_of cells nodes (gcell (Dr r) c))%R /\
     (dt = 1000000%R \/ exists c, iscell_of (Dr r) c /\ (0 < full_speed cells nodes U K (gcell (Dr r) c))%R /\ (dt * full_speed cells nodes U K (gcell (Dr r) c) = cfl * measure_of cells nodes (gcell (Dr r) c))%R)) SIZE ltac:(lia)) as (dts & ED & LD & VD).
  { intros r Hr. rewrite (dom r Hr). cbn [bind]. destruct (VV r Hr) as (u & Eu & _ & _ & EC). rewrite Eu. cbn [bind]. rewrite EC. destruct (full_timestep_ok dim cells nodes labels epart r (Dr r) VM (PAr r Hr) (CS r Hr) U K cfl HCFL HK) as (dt & E & H). exists (Some dt). split; [exact E|]. exists dt. split; [reflexivity | exact H]. }
  rewrite ED. cbn [bind]. destruct (full_min_step dts LD) as (dt & EM & PD & LS). { intros r Hr. destruct (VD r Hr) as (o & Eo & _ & Q). exists o. split; [exact Eo | exact Q]. }
  rewrite EM.
  destruct (cell_gradient_ok dim SIZE cells nodes labels npart0 epart st VM PL VS RP SC CS HX bc vs BV CW SP X nes (shows_holds _ _ _ _ _ _ _ _ _ _ HN)) as (l1 & gs & Sl & Ps & EG & HS1 & HSl & (LGs & HGs)). rewrite EG. cbn [bind fst snd].
  pose proof HS1 as (ws1 & L1 & V1 & H1).
  destruct (mapM_ranks (fun r => do D <- get Ds r; do v <- get l1 r; do G <- get gs r; convective_rank order U D v G)
     (fun r rez => zlen rez = zlen (dm_center (Dr r)) /\ forall c, iscell_of (Dr r) c -> nthZ 0%R rez c = (- rsum (map (carried dim cells nodes labels bc vs order U X Sl Ps (gcell (Dr r) c)) (facets (cell cells (gcell (Dr r) c)))))%R) SIZE ltac:(lia)) as (rez & EZ & LZ & HZ).
  { intros r Hr. rewrite (dom r Hr). cbn [bind]. destruct (H1 r Hr) as (v & W & Ev & _ & EA & SE). rewrite Ev. cbn [bind]. destruct (HGs r Hr) as (G & EGr & GL & GC & GH). rewrite EGr. cbn [bind]. apply (convective_rank_ok r X v W Sl Ps G Hr EA SE); [|exact GL | exact GC | exact GH]. intros c Hc. exact (slope_gradient _ _ _ _ _ (proj1 (HSl c Hc))). }
  rewrite EZ. cbn [bind].
  destruct (face_gradient_all dim SIZE cells nodes labels npart0 epart st VM PL VS RP SC CS HX bc vs BV CW SP X l1 (map fh_face hs) (shows_holds _ _ _ _ _ _ _ _ _ _ HS1)) as (l2 & fs & N & G & EF & HS2 & HNd & HFs & (LFs & HFr)).
  { intros r Hr. destruct (HR r Hr) as (s & Es & _ & Ls). exists (fh_face s). split; [apply get_map; [exact Es | lia] | exact Ls]. }
  rewrite EF. cbn [bind fst snd]. pose proof HS2 as (ws2 & L2 & V2 & H2).
  set (Y := fun c => (X c + dt / measure_of cells nodes c * rsum (map (fun F => diffused cells nodes K (G c F) c F - carried dim cells nodes labels bc vs order U X Sl Ps c F) (facets (cell cells c))))%R).
  destruct (mapM_ranks (fun r => do D <- get Ds r; do v <- get l2 r; do z <- get rez r; do g <- get fs r; update_rank K dt D v z g)
     (fun r v => exists w, vfull (dom_bc (Dr r)) bc vs w v /\ zlen w = zlen (dm_loctoglob (Dr r)) /\ forall c, iscell_of (Dr r) c -> nthZ 0%R w c = Y (gcell (Dr r) c)) SIZE ltac:(lia)) as (nw & EW & LW & HW).
  { intros r Hr. rewrite (dom r Hr). cbn [bind]. destruct (H2 r Hr) as (v & W & Ev & FV & _). rewrite Ev. cbn [bind]. destruct (HZ r Hr) as (z & Ez & _ & Lz & Vz). rewrite Ez. cbn [bind]. destruct (HFr r Hr) as (g & Eg & Lg & Vg). rewrite Eg. cbn [bind]. destruct V2 as (_ & V2). destruct (V2 r Hr) as (Lw & Vw).
    destruct (update_rank_ok r X _ v dt z g _ G Hr FV Lw Vw Lz Vz Lg Vg) as (v' & w' & E & FV' & LW' & VW'). exists v'. split; [exact E|]. exists w'. split; [exact FV'|]. split; [exact LW'|]. exact VW'. }
  rewrite EW. cbn [bind].
  assert (HNW : holds Y nw).
  { destruct (mapM_ranks cell_of (fun _ _ => True) 0) as (_ & _) || idtac.
    assert (EC : exists ws, mapM (fun r => do v <- get nw r; cell_of v) (range SIZE) = Ok ws /\ zlen ws = SIZE /\ forall r, 0 <= r < SIZE -> exists v, get nw r = Ok v /\ vfull (dom_bc (Dr r)) bc vs (nthZ [] ws r) v /\ zlen (nthZ [] ws r) = zlen (dm_loctoglob (Dr r)) /\ forall c, iscell_of (Dr r) c -> nthZ 0%R (nthZ [] ws r) c = Y (gcell (Dr r) c)).
    { destruct (mapM_ranks (fun r => do v <- get nw r; cell_of v) (fun r w => exists v, get nw r = Ok v /\ vfull (dom_bc (Dr r)) bc vs w v /\ zlen w = zlen (dm_loctoglob (Dr r)) /\ forall c, iscell_of (Dr r) c -> nthZ 0%R w c = Y (gcell (Dr r) c)) SIZE ltac:(lia)) as (ws & E & L & H).
      { intros r Hr. destruct (HW r Hr) as (v & Ev & _ & w & FV & Lw & Vw). rewrite Ev. cbn [bind]. exists w. split; [exact (full_cell _ _ _ _ _ FV)|]. exists v. auto. }
      exists ws. split; [exact E|]. split; [exact L|]. intros r Hr. destruct (H r Hr) as (w & Ew & _ & Q). rewrite (get_nthZ []) in Ew by lia. injection Ew as <-. exact Q. }
    destruct EC as (ws & _ & Lws & Hws). exists ws. split; [exact LW|]. split; [split; [exact Lws|] |].
    - intros r Hr. destruct (Hws r Hr) as (v & _ & _ & A & B). split; [exact A | exact B].
    - intros r Hr. destruct (Hws r Hr) as (v & Ev & FV & _). exists v. auto. }
  destruct (interpolate_ok dim SIZE cells nodes labels npart0 epart st VM PL VS RP SC CS HX bc vs BV CW SP Y nw HNW) as (l3 & E3 & HS3 & NV3). rewrite E3. cbn [bind]. pose proof HS3 as (ws3 & L3 & V3 & H3).
  destruct (mapM_ranks (fun r => do v <- get l3 r; do u <- get vel r; do g <- get fs r; ret {| fh_ne := v; fh_vel := u; fh_face := g |})
     (fun r s => get l3 r = Ok (fh_ne s) /\ vel_ok (Dr r) (fh_vel s) /\ zlen (fh_face s) = zlen (dm_cellid (Dr r))) SIZE ltac:(lia)) as (hs' & EH & LH' & HH').
  { intros r Hr. destruct (H3 r Hr) as (v & W & Ev & _). rewrite Ev. cbn [bind]. destruct (VV r Hr) as (u & Eu & _ & VO & _). rewrite Eu. cbn [bind]. destruct (HFr r Hr) as (g & Eg & Lg & _). rewrite Eg. cbn [bind]. eexists. split; [reflexivity|]. cbn [fh_ne fh_vel fh_face]. auto. }
  rewrite EH. cbn [bind].
  assert (EM3 : map fh_ne hs' = l3).
  { destruct (HH' 0 ltac:(lia)) as (dh & _). apply (nthZ_ext (fh_ne dh)); [rewrite zlen_map; lia|]. intros r Hr. rewrite zlen_map in Hr. rewrite (nthZ_map _ dh) by lia. destruct (HH' r ltac:(lia)) as (s & Es & _ & E' & _). rewrite (get_nthZ dh) in Es by lia. rewrite (get_nthZ (fh_ne dh)) in E' by lia. injection Es as <-. injection E' as E'. symmetry. exact E'. }
  exists dt, hs', Y. split; [reflexivity|]. split; [exact PD|]. split; [exact LS|]. split; [|split; [|rewrite EM3; split; assumption]].
  - exists Sl, Ps, N, G. split; [split; [exact HSl|]; split; [exact HNd | exact HFs]|]. intros c Hc. reflexivity.
  - split; [exact LH'|]. split; [rewrite EM3; exact (shows_holds _ _ _ _ _ _ _ _ _ _ HS3)|]. intros r Hr. destruct (HH' r Hr) as (s & Es & _ & _ & Q). exists s. split; [exact Es | exact Q].
Qed.

(** the loop *)
Definition with_nodes (n : nat) (X : Z -> R) (hs : list full_held) : Prop := full_state X hs /\ (n = O \/ shows X (map fh_ne hs) /\ node_values dim SIZE cells nodes labels st bc vs X (map fh_ne hs)).
Lemma full_loop_runs dt tfinal X0 : largest_full cells nodes U K cfl dt -> forall n k hs X fuel, with_nodes k X hs -> full_steps dim cells nodes labels bc vs k order U K dt X0 X -> (n <= fuel)%nat ->
  (tfinal <= INR (k + n) * dt)%R -> (forall m, (m < k + n)%nat -> (INR m * dt < tfinal)%R) ->
  exists hs' Y, full_loop fuel order U K cfl SIZE st tfinal (INR k * dt)%R hs = Ok (Some (INR (k + n) * dt, hs')%R) /\ with_nodes (k + n) Y hs' /\ full_steps dim cells nodes labels bc vs (k + n) order U K dt X0 Y.
Proof.
  intros HD. induction n as [|n IH]; intros k hs X fuel HS HT Hf T1 T2.
  - rewrite Nat.add_0_r in *. exists hs, X. split; [|split; [exact HS | exact HT]]. destruct fuel; cbn [full_loop]; destruct (Rlt_dec (INR k * dt) tfinal); [exfalso; lra | reflexivity | exfalso; lra | reflexivity].
  - destruct fuel as [|fuel]; [lia|]. cbn [full_loop]. destruct (Rlt_dec (INR k * dt) tfinal) as [_|X1]; [|exfalso; apply X1, T2; lia]. destruct (full_turn_ok _ _ (proj1 HS)) as (dt' & hs' & Y & E & _ & LS & ST' & HS' & SH & NV). rewrite E. cbn [bind fst snd].
    rewrite (largest_full_unique _ _ _ _ _ _ _ LS HD) in *. replace (INR k * dt + dt)%R with (INR (Datatypes.S k) * dt)%R by (rewrite S_INR; ring). replace (k + Datatypes.S n)%nat with (Datatypes.S k + n)%nat in * by lia.
    apply (IH (Datatypes.S k) hs' Y); [split; [exact HS' | right; split; assumption] | exists X; split; assumption | lia | exact T1 | exact T2].
Qed.
Lemma full_results X hs : full_state X hs -> exists ws, mapM (fun s => cell_of (fh_ne s)) hs = Ok ws /\ values_of 0%R SIZE Ds X ws.
Proof.
  intros (LH & HO & _). destruct (holds_cells dim SIZE cells nodes npart0 epart st VS bc vs X _ HO) as (ws & E & V). exists ws. split; [|exact V]. rewrite mapM_map in E. exact E.
Qed.
Lemma full_transport_runs X w0 tfinal : values_of 0%R SIZE Ds X w0 -> exists dt n, (0 < dt)%R /\ largest_full cells nodes U K cfl dt /\ (tfinal <= INR n * dt)%R /\ (forall m, (m < n)%nat -> (INR m * dt < tfinal)%R) /\
  forall fuel, (n <= fuel)%nat -> exists hs ws Y, full_transport fuel order bc vs U K cfl tfinal SIZE st w0 = Ok (Some (INR n * dt, hs)%R) /\ mapM (fun s => cell_of (fh_ne s)) hs = Ok ws /\ values_of 0%R SIZE Ds Y ws /\
    full_steps dim cells nodes labels bc vs n order U K dt X Y /\ (n = O \/ shows Y (map fh_ne hs) /\ node_values dim SIZE cells nodes labels st bc vs Y (map fh_ne hs)).
Proof.
  intros HV. destruct (full_start_ok X w0 HV) as (hs & E & HS). destruct (full_turn_ok X hs HS) as (dt & _ & _ & _ & PD & LS & _). destruct (steps dt tfinal PD) as (n & T1 & T2). exists dt, n. split; [exact PD|]. split; [exact LS|]. split; [exact T1|]. split; [exact T2|].
  intros fuel Hf. destruct (full_loop_runs dt tfinal X LS n 0%nat hs X fuel) as (hs' & Y & EL & (HS' & HN) & HT); [split; [exact HS | left; reflexivity] | intros c _; reflexivity | exact Hf | exact T1 | exact T2|]. destruct (full_results _ _ HS') as (ws & EW & HW). exists hs', ws, Y. split; [|split; [exact EW|split; [exact HW|split; [exact HT|]]]].
  - unfold full_transport. rewrite E. cbn [bind]. cbn [INR] in EL. rewrite Rmult_0_l in EL. exact EL.
  - exact HN.
Qed.
End Ranks14.
