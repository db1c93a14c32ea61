(** * Proofs_run35: the streamer program on all the ranks (C83). *)
From Coq Require Import Reals Rpower Lra Psatz Permutation Sorted.
From Verif Require Import Py PyLemmas Model_part Spec_part Model_label Model_conn Spec_conn Proofs_conn1 Proofs_conn2 Model_geom Spec_geom Proofs_geom1 Proofs_geom2 Proofs_geom3
  Model_halo Spec_halo Model_interp Spec_interp Proofs_interp4 Proofs_interp5 Proofs_interp6 Spec_lsq Proofs_lsq Properties_lsq Model_fvm Spec_fvm Proofs_fvm1 Proofs_fvm2 Properties_fvm Model_bc Spec_bc Spec_bc3 Proofs_label Proofs_bc Proofs_bc2 Proofs_bc3 Properties_bc3 Model_domain Spec_domain Proofs_domain1 Proofs_domain4
  Model_comm Model_parallel Spec_parallel Proofs_parallel1 Proofs_parallel6 Properties_parallel Model_run Spec_run Proofs_run1 Proofs_run2 Proofs_run3 Proofs_run4 Proofs_run5 Proofs_run6 Spec_run2 Model_run2 Proofs_run7 Proofs_run8 Proofs_run9 Proofs_run10 Proofs_run11 Proofs_run12 Proofs_run13 Proofs_run14 Proofs_run15 Spec_run3 Proofs_run16
  Model_poisson Spec_poisson Proofs_poisson1 Proofs_poisson2 Proofs_poisson3 Spec_poisson2 Spec_poisson3 Proofs_poisson4 Proofs_poisson6 Proofs_poisson7 Proofs_poisson8 Proofs_poisson9 Proofs_poisson10 Model_run4 Spec_run6 Proofs_run30 Proofs_run31 Proofs_run32 Proofs_run33 Model_run5 Spec_run7.
From Verif Require Model_linsys Spec_linsys.
Open Scope Z_scope.

From Verif Require Model_streamer.
From Verif Require Import Spec_streamer.
From Verif Require Proofs_streamer Proofs_streamer2 Properties_streamer.
From Verif Require Import Proofs_run34.


Section Ranks35.
Context (dim SIZE : Z) (cells : list (list Z)) (nodes : list pt) (labels npart0 epart : list Z) (st : setting).
Hypothesis VM : valid_mesh dim cells nodes labels.
Hypothesis PL : dim = 2 -> planar nodes.
Hypothesis VS : valid_split dim SIZE cells nodes npart0 epart.
Notation Ds := (se_domains st).
Notation Dr := (domain_of (se_domains st)).
Hypothesis RP : represents dim SIZE cells nodes labels epart Ds.
Hypothesis SC : star_connected dim cells.
Hypothesis CS : forall r, 0 <= r < SIZE -> consistent dim (Dr r).
Hypothesis HX : 1 < SIZE -> forall (V : Type) (d : V) (X : Z -> V) (w : list (list V)), values_of d SIZE Ds X w -> exists halo, update_halo_value SIZE (se_comms st) w = Ok halo /\ halo_values_of d SIZE Ds X halo.
Hypothesis SP : spanned dim cells nodes.
Hypothesis TC : get (se_tc st) 0 = Ok (concat (map (owned cells epart) (range SIZE))).
Notation PAr := (rp_part _ _ _ _ _ _ _ RP).
Notation holds := (holds SIZE st).
Notation shows := (shows dim SIZE cells nodes labels st).
Notation sizes := (Proofs_run5.sizes dim SIZE cells nodes labels epart st RP).
Notation size1 := (size11 dim SIZE cells nodes npart0 epart VS).
Notation dom r Hr := (dom11 dim SIZE cells nodes labels epart st RP r Hr).
Context (bcp : list (loc * bctype)) (vsp : list (loc * bcval)).
Hypothesis BVp : bc_valid dim bcp vsp.
Hypothesis CWp : corners_whole dim cells labels bcp epart.
Context (bc : list (loc * bctype)) (vs : list (loc * bcval)).
Hypothesis BV : bc_valid dim bc vs.
Hypothesis CW : corners_whole dim cells labels bc epart.
(** *** the charge *)
Definition rhs_ok (sol : Model_linsys.solver) (rhs : list (list R)) : Prop := forall r, 0 <= r < SIZE -> exists y, get rhs r = Ok y /\
  match sol with Model_linsys.SPetsc => zlen y = zlen (dm_center (Dr r)) | _ => zlen y = zlen cells /\ forall g, iscell cells g -> ~ In g (dm_loctoglob (Dr r)) -> nthZ 0%R y g = 0%R end.
Lemma loc_in r g : 0 <= r < SIZE -> In g (dm_loctoglob (Dr r)) <-> iscell cells g /\ owner epart g = r.
Proof.
  intros Hr. rewrite (pa_cells _ _ _ _ _ _ _ (PAr r Hr)). unfold owned. rewrite filter_In, in_range, Z.eqb_eq. reflexivity.
Qed.
Lemma charge_ok sol X XI l ni rhs : sol = Model_linsys.SMumps \/ sol = Model_linsys.SPetsc -> holds bc vs X l -> values_of 0%R SIZE Ds XI ni -> rhs_ok sol rhs ->
  exists rhs', mapM (fun r => do D <- get Ds r; do v <- get l r; do n <- get ni r; do y <- get rhs r; charge_rank sol D v n y) (range SIZE) = Ok rhs' /\ rhs_ok sol rhs' /\
    source sol cells SIZE st (passed_rhs sol SIZE st rhs') (charge_of X XI).
Proof.
  intros SOL (ws & LL & (LWs & HW) & HV) (LN & HN) HR. pose proof size1 as S1.
  destruct (mapM_ranks (fun r => do D <- get Ds r; do v <- get l r; do n <- get ni r; do y <- get rhs r; charge_rank sol D v n y)
    (fun r y => match sol with Model_linsys.SPetsc => zlen y = zlen (dm_center (Dr r)) /\ forall c, iscell_of (Dr r) c -> nthZ 0%R y c = charge_of X XI (gcell (Dr r) c)
      | _ => zlen y = zlen cells /\ forall g, iscell cells g -> nthZ 0%R y g = if r =? owner epart g then charge_of X XI g else 0%R end) SIZE ltac:(lia)) as (rhs' & E & L & H).
  { intros r Hr. rewrite (dom r Hr). cbn [bind]. destruct (HV r Hr) as (v & Ev & FV). rewrite Ev. cbn [bind]. rewrite (get_nthZ []) by lia. cbn [bind]. destruct (HR r Hr) as (y & Ey & Hy). rewrite Ey. cbn [bind]. unfold charge_rank. rewrite (full_cell _ _ _ _ _ FV). cbn [bind].
    destruct (HW r Hr) as (W1 & W2). destruct (HN r Hr) as (N1 & N2). destruct (sizes r Hr) as (Z1 & _). destruct SOL as [-> | ->].
    - destruct Hy as (Hy & H0). destruct (Proofs_streamer2.rhs_glob_ok (nthZ [] ws r) (nthZ [] ni r) (dm_loctoglob (Dr r)) y) as (y' & E' & L' & P1 & P2); [lia | lia | | |].
      { rewrite (pa_cells _ _ _ _ _ _ _ (PAr r Hr)). apply NoDup_filter, NoDup_range. }
      { intros g Hg. apply (loc_in r g Hr) in Hg as (Hg & _). unfold iscell in Hg. lia. }
      exists y'. split; [exact E'|]. split; [lia|]. intros g Hg. destruct (Z.eqb_spec r (owner epart g)) as [Q|Q].
      + destruct (gcell_onto dim cells nodes labels epart r (Dr r) (PAr r Hr) g Hg (eq_sym Q)) as (a & Ha & <-). unfold iscell_of in Ha. specialize (P1 a ltac:(lia)). rewrite (W2 a Ha), (N2 a Ha) in P1. unfold gcell at 1. rewrite (nthZ_indep (-1) 0) by lia. exact P1.
      + rewrite P2; [apply H0; [exact Hg|] | unfold iscell in Hg; lia |]; intros I; apply (loc_in r g Hr) in I as (_ & I); congruence.
    - destruct (Proofs_streamer2.rhs_loc_ok (nthZ [] ws r) (nthZ [] ni r) (dm_loctoglob (Dr r)) y) as (y' & E' & L' & P1 & _); [lia | lia|]. exists y'. split; [exact E'|]. split; [lia|]. intros c Hc. rewrite P1 by (unfold iscell_of in Hc; lia). rewrite (W2 c Hc), (N2 c Hc). reflexivity. }
  exists rhs'. split; [exact E|]. destruct SOL as [-> | ->].
  - split.
    + intros r Hr. destruct (H r Hr) as (y & Ey & _ & Ly & Vy). exists y. split; [exact Ey|]. split; [exact Ly|]. intros g Hg NI. rewrite (Vy g Hg). destruct (Z.eqb_spec r (owner epart g)) as [Q|Q]; [|reflexivity]. exfalso. apply NI. apply (loc_in r g Hr). auto.
    + intros r Hr. eexists. split; [unfold passed_rhs; rewrite (get_nthZ None) by (rewrite zlen_map, zlen_range; lia); rewrite (nthZ_map _ 0) by (rewrite zlen_range; lia); rewrite nthZ_range by exact Hr; reflexivity|]. cbv zeta.
      destruct (Z.eqb_spec r 0) as [->|NE]; [|intros; contradiction]. split; [reflexivity|]. rewrite (global_size_ok dim SIZE cells nodes labels npart0 epart st VS RP CS). unfold Model_streamer.reduce_sum. rewrite zlen_map, zlen_range by apply zlen_nonneg. split; [reflexivity|].
      intros c Hc. pose proof (proj2 (vs_owners _ _ _ _ _ _ VS) c Hc) as OW. unfold iscell in Hc. rewrite (nthZ_map _ 0) by (rewrite zlen_range; lia). rewrite nthZ_range by lia. rewrite Proofs_streamer2.fold_rsum, Rplus_0_l, <- (map_nthZ_range [] rhs'), L, map_map.
      rewrite (rsum_map_ext _ (fun q => if owner epart c =? q then charge_of X XI c else 0%R)); [apply rsum_delta; exact OW|]. intros q Hq. apply in_range in Hq. destruct (H q Hq) as (y & Ey & _ & _ & Vy). rewrite (get_nthZ []) in Ey by lia. injection Ey as ->. rewrite (Vy c Hc), Z.eqb_sym. reflexivity.
  - split.
    + intros r Hr. destruct (H r Hr) as (y & Ey & _ & Ly & _). exists y. auto.
    + intros r Hr. destruct (H r Hr) as (y & Ey & _ & Ly & Vy). exists (Some y). split; [unfold passed_rhs; rewrite (get_nthZ []) in Ey by lia; injection Ey as <-; rewrite (get_nthZ None) by (rewrite zlen_map; lia); rewrite (nthZ_map _ []) by lia; reflexivity|]. cbv zeta. split; [rewrite Ly; apply sizes; exact Hr | exact Vy].
Qed.

(** *** the systems *)
Lemma system_ok sol P0 pl : sol = Model_linsys.SMumps \/ sol = Model_linsys.SPetsc -> holds bcp vsp P0 pl ->
  exists ss es, new_system SIZE st pl (Some sol) (map (fun _ => None) (range SIZE)) = Ok ss /\ assemble SIZE st pl = Ok es /\
    (forall r, 0 <= r < SIZE -> exists B, get (ss_bord ss) r = Ok B /\ Spec_linsys.boundary_data (dom_bc (Dr r)) bcp vsp B) /\
    forall user f, source sol cells SIZE st user f -> exists b, handed_rhs SIZE st sol ss user = Ok b /\
      forall x, zlen x = zlen cells -> (solves (concat es) b (zlen cells) x <-> poisson dim cells nodes labels bcp vsp f (nthZ 0%R x)).
Proof.
  intros HS HPL. assert (HU : usable SIZE sol) by (destruct HS as [-> | ->]; exact I). pose proof (no_source dim SIZE cells nodes npart0 epart st VS sol HS) as N0.
  destruct (operator_ok dim SIZE cells nodes labels npart0 epart st VM PL VS RP SC CS bcp vsp BVp SP P0 pl sol _ _ _ _ HPL HU N0 N0) as (ss & es & _ & E1 & E2 & _).
  exists ss, es. split; [exact E1|]. split; [exact E2|]. split; [exact (system_bord dim SIZE cells nodes labels npart0 epart st VM PL VS RP SC CS bcp vsp BVp SP P0 pl (Some sol) _ ss HPL E1)|].
  intros user f HF. destruct (operator_ok dim SIZE cells nodes labels npart0 epart st VM PL VS RP SC CS bcp vsp BVp SP P0 pl sol _ _ user f HPL HU N0 HF) as (ss' & es' & b & E1' & E2' & E3 & LB & _ & HL).
  rewrite E1 in E1'. injection E1' as <-. rewrite E2 in E2'. injection E2' as <-. exists b. split; [exact E3|]. intros x Lx.
  assert (ET : forall c, total sol (fun _ => 0%R) f c = f c) by (intros c; unfold total; destruct HS as [-> | ->]; ring). split.
  - intros (_ & HS') c Hc. destruct (HL (nthZ 0%R x) c Hc) as (a & y & Ea & Ey & LP). destruct (HS' c Hc) as (a' & Ea' & Ey'). rewrite Ea in Ea'. injection Ea' as <-. rewrite Ey in Ey'. injection Ey' as ->. rewrite ET in LP. replace (f c) with (a - a + f c)%R by ring. exact LP.
  - intros HPo. split; [exact Lx|]. intros c Hc. destruct (HL (nthZ 0%R x) c Hc) as (a & y & Ea & Ey & LP). exists a. split; [exact Ea|]. rewrite Ey. f_equal. pose proof (laplacian_unique dim cells nodes labels bcp vsp VM _ _ c _ _ (fun _ _ => eq_refl) Hc LP (HPo c Hc)) as Q. rewrite ET in Q. lra.
Qed.
(** what a solver that solves returns *)
Lemma solved b es f (backend : list Model_linsys.entry -> list (option R) -> list R) : solving (zlen cells) backend -> zlen (backend es b) = zlen cells ->
  (forall x, zlen x = zlen cells -> (solves es b (zlen cells) x <-> poisson dim cells nodes labels bcp vsp f (nthZ 0%R x))) ->
  (exists P', poisson dim cells nodes labels bcp vsp f P') -> poisson dim cells nodes labels bcp vsp f (nthZ 0%R (backend es b)).
Proof.
  intros HS LB HI (P' & HP'). apply HI; [exact LB|]. apply HS. set (x := map P' (range (zlen cells))). assert (Lx : zlen x = zlen cells) by (unfold x; rewrite zlen_map; apply zlen_range, zlen_nonneg).
  assert (Ex : forall c, iscell cells c -> nthZ 0%R x c = P' c). { intros c Hc. unfold x. unfold iscell in Hc. rewrite (nthZ_map _ 0) by (rewrite zlen_range; lia). rewrite nthZ_range by lia. reflexivity. }
  exists x. apply HI; [exact Lx|]. intros c Hc. exact (laplacian_same dim cells nodes labels bcp vsp VM P' _ c _ (fun d Hd => eq_sym (Ex d Hd)) Hc (HP' c Hc)).
Qed.

(** *** fields at the faces *)
Lemma field_rank V gs r g : face_field dim cells SIZE st V gs -> 0 <= r < SIZE -> get gs r = Ok g -> at_faces (Dr r) V g.
Proof.
  intros (_ & H) Hr E. destruct (H r Hr) as (g' & E' & L & Vg). rewrite E in E'. injection E' as <-. split; [exact L|]. intros c f Hc Hf.
  destruct (face_row dim SIZE cells nodes labels epart st VM RP CS r c f Hr Hc Hf) as (A & B & _). exact (Vg c f _ Hc A B).
Qed.
Lemma rank_field V gs : zlen gs = SIZE -> (forall r, 0 <= r < SIZE -> exists g, get gs r = Ok g /\ at_faces (Dr r) V g) -> face_field dim cells SIZE st V gs.
Proof.
  intros L H. split; [exact L|]. intros r Hr D. destruct (H r Hr) as (g & E & Lg & Vg). exists g. split; [exact E|]. split; [exact Lg|]. intros c f F Hc HF GF.
  rewrite <- (fset_eq dim cells D f F _ HF GF). apply Vg; [exact Hc|]. apply (pa_cellfaces _ _ _ _ _ _ _ (PAr r Hr) c f F Hc GF). apply HF.
Qed.

(** *** the time step of all the ranks *)
Lemma streamer_min E cfl dts : (0 < cfl)%R -> zlen dts = SIZE ->
  let speed c := full_speed cells nodes (mean_velocity dim cells (fun c F => drift (E c F)) c) (P3 (electron_diffusivity (mean_velocity dim cells E c) (mean_velocity dim cells (fun c F => drift (E c F)) c)) 0 0) c in
  (forall r, 0 <= r < SIZE -> exists o, get dts r = Ok o /\ exists dt, o = Some dt /\ (0 < dt <= 1000000)%R /\
     (forall c, iscell_of (Dr r) c -> mean_velocity dim cells E (gcell (Dr r) c) <> vzero -> dt * speed (gcell (Dr r) c) <= cfl * measure_of cells nodes (gcell (Dr r) c))%R /\
     (dt = 1000000%R \/ exists c, iscell_of (Dr r) c /\ mean_velocity dim cells E (gcell (Dr r) c) <> vzero /\ (0 < speed (gcell (Dr r) c))%R /\ (dt * speed (gcell (Dr r) c) = cfl * measure_of cells nodes (gcell (Dr r) c))%R)) ->
  exists dt, allreduce_min dts = Some dt /\ (0 < dt)%R /\ largest_streamer dim cells nodes E cfl dt.
Proof.
  intros HC LD speed HD0. pose proof size1 as S1.
  assert (SPN : forall c, iscell cells c -> mean_velocity dim cells E c <> vzero -> (0 <= speed c)%R).
  { intros c Hc NZ. apply speed_nonneg; [|exact (cell_positive dim cells nodes labels c VM Hc)]. cbn [px py pz]. pose proof (Proofs_streamer.diffusivity_nonneg (mean_velocity dim cells E c) (mean_velocity dim cells (fun c F => drift (E c F)) c)). lra. }
  assert (HD : forall r, 0 <= r < SIZE -> exists dt, nthZ None dts r = Some dt /\ (0 < dt <= 1000000)%R /\
     (forall c, iscell_of (Dr r) c -> mean_velocity dim cells E (gcell (Dr r) c) <> vzero -> dt * speed (gcell (Dr r) c) <= cfl * measure_of cells nodes (gcell (Dr r) c))%R /\
     (dt = 1000000%R \/ exists c, iscell_of (Dr r) c /\ mean_velocity dim cells E (gcell (Dr r) c) <> vzero /\ (0 < speed (gcell (Dr r) c))%R /\ (dt * speed (gcell (Dr r) c) = cfl * measure_of cells nodes (gcell (Dr r) c))%R)).
  { intros r Hr. destruct (HD0 r Hr) as (o & Eo & dt & -> & H). rewrite (get_nthZ None) in Eo by lia. injection Eo as Eo. exists dt. split; [exact Eo | exact H]. }
  destruct (allreduce_ok dts) as (dt & Ed & (i & Hi & Ei) & ML); [lia | intros j Hj; destruct (HD j ltac:(lia)) as (x & Ex & _); exists x; exact Ex|].
  exists dt. split; [exact Ed|]. destruct (HD i ltac:(lia)) as (dt' & E' & B & F & Mx). rewrite Ei in E'. injection E' as <-. split; [lra|]. split.
  - split; [lra|]. intros c Hc e u NZ. unfold e, u in *. clear e u. fold (speed c). destruct (rank_of dim SIZE cells nodes labels npart0 epart st VS RP c Hc) as (r & a & Hr & Ha & Ec). subst c.
    destruct (HD r Hr) as (dr & Er & Br & Fr & _). pose proof (ML r dr ltac:(lia) Er) as LE. specialize (Fr a Ha NZ). eapply Rle_trans; [|exact Fr]. apply Rmult_le_compat_r; [|exact LE]. exact (SPN _ Hc NZ).
  - intros d (D1 & D2). destruct Mx as [->|(a & Ha & NZ & S0 & ES)]; [exact D1|]. specialize (D2 (gcell (Dr i) a) ltac:(exact (proj1 (gcell_owned dim cells nodes labels epart i (Dr i) (PAr i ltac:(lia)) a Ha)))). cbv zeta in D2. specialize (D2 NZ). fold (speed (gcell (Dr i) a)) in D2. rewrite <- ES in D2. apply (Rmult_le_reg_r _ _ _ S0 D2).
Qed.

(** *** the turn *)
Definition streamer_state (sol : Model_linsys.solver) (P X XI : Z -> R) (s : streamer_held) : Prop :=
  holds bc vs X (sk_ne s) /\ values_of 0%R SIZE Ds XI (sk_ni s) /\ holds bcp vsp P (sk_P s) /\ sized SIZE st (sk_gne s) /\ sized SIZE st (sk_gP s) /\ rhs_ok sol (sk_rhs s) /\ sized SIZE st (sk_Ef s) /\ sized SIZE st (sk_vf s).
Lemma field_copy gs es V : face_field dim cells SIZE st V gs -> sized SIZE st es -> mapM (fun r => do g <- get gs r; do e <- get es r; Model_streamer.compute_el_field g e) (range SIZE) = Ok gs.
Proof.
  intros (LG & HG) HE. pose proof size1 as S1. rewrite (mapM_ok _ (nthZ [] gs)); [f_equal; rewrite <- LG; apply map_nthZ_range|]. intros r Hr. apply in_range in Hr. destruct (HG r Hr) as (g & Eg & Lg & _). destruct (HE r Hr) as (e & Ee & Le). rewrite Eg, Ee. cbn [bind].
  rewrite (get_nthZ []) in Eg by lia. injection Eg as ->. unfold Model_streamer.compute_el_field. rewrite Le, <- Lg. rewrite (mapM_ok _ (nthZ p0 g)); [f_equal; apply map_nthZ_range|]. intros i Hi. apply in_range in Hi. apply get_nthZ. exact Hi.
Qed.
Context (fresh : bool) (order : Z) (cfl : R).
Hypothesis FO : fresh = true \/ order = 2.
Hypothesis HCFL : (0 < cfl)%R.
Lemma streamer_turn_ok sol ss es save backend P0 X XI s : sol = Model_linsys.SMumps \/ sol = Model_linsys.SPetsc -> streamer_state sol P0 X XI s ->
  (forall r, 0 <= r < SIZE -> exists B, get (ss_bord ss) r = Ok B /\ Spec_linsys.boundary_data (dom_bc (Dr r)) bcp vsp B) ->
  (forall user f, source sol cells SIZE st user f -> exists b, handed_rhs SIZE st sol ss user = Ok b /\
      forall x, zlen x = zlen cells -> (solves (concat es) b (zlen cells) x <-> poisson dim cells nodes labels bcp vsp f (nthZ 0%R x))) ->
  (forall b, zlen (backend (concat es) b) = zlen cells) -> solving (zlen cells) backend ->
  exists P E dt Y YI, ((exists P', poisson dim cells nodes labels bcp vsp (charge_of X XI) P') -> poisson dim cells nodes labels bcp vsp (charge_of X XI) P) /\
    velocity_of dim cells nodes labels bcp vsp P E /\ (0 < dt)%R /\ largest_streamer dim cells nodes E cfl dt /\ streamer_step dim cells nodes labels bc vs order E dt X XI Y YI /\
    (forall e, save dt = Err e -> streamer_turn fresh order cfl save SIZE st sol ss es backend s = Err e) /\
    (forall b, save dt = Ok b -> exists s', streamer_turn fresh order cfl save SIZE st sol ss es backend s = Ok (dt, s') /\ streamer_state sol P Y YI s' /\
       face_field dim cells SIZE st E (sk_gP s') /\ face_field dim cells SIZE st E (sk_Ef s') /\ face_field dim cells SIZE st (fun c F => drift (E c F)) (sk_vf s') /\
       (b = true -> shows bc vs Y (sk_ne s') /\ Proofs_run11.node_values dim SIZE cells nodes labels st bc vs Y (sk_ne s'))).
Proof.
  intros SOL (HN & HI & HP & GN & GP & RH & SE & SV) HB SY LB HSv. pose proof size1 as S1. unfold streamer_turn.
  destruct (charge_ok sol X XI _ _ _ SOL HN HI RH) as (rhs & ER & RH' & SRC). rewrite ER. cbn [bind].
  destruct (SY _ _ SRC) as (b & EB & HSy). set (x := backend (concat es) b) in *.
  destruct (solve_gradient_ok dim SIZE cells nodes labels npart0 epart st VM PL VS RP SC CS HX SP TC bcp vsp BVp CWp P0 (sk_P s) (sk_gP s) sol ss es _ b backend HP GP HB SOL EB (LB b)) as (Pl & gP & E & EP & HP' & FF & VP). rewrite EP. cbn [bind fst snd]. fold x in HP', VP.
  rewrite (field_copy gP (sk_Ef s) E FF SE). cbn [bind].
  set (DR := fun c F => drift (E c F)).
  destruct (mapM_ranks (fun r => do D <- get Ds r; do e <- get gP r; do u <- get (sk_vf s) r; Model_streamer.compute_velocity e u (dm_faceid D) (dm_dim D))
     (fun r u => at_faces (Dr r) DR (fst (fst u)) /\ zlen (snd (fst u)) = zlen (dm_center (Dr r)) /\ zlen (snd u) = zlen (dm_center (Dr r)) /\
        forall c, iscell_of (Dr r) c -> nthZ vzero (snd (fst u)) c = mean_velocity dim cells DR (gcell (Dr r) c) /\ nthZ vzero (snd u) c = mean_velocity dim cells E (gcell (Dr r) c)) SIZE ltac:(lia)) as (vel & EV & LV & VV).
  { intros r Hr. rewrite (dom r Hr). cbn [bind]. destruct (proj2 FF r Hr) as (g & Eg & _). pose proof (field_rank E gP r g FF Hr Eg) as AF. rewrite Eg. cbn [bind]. destruct (SV r Hr) as (old & Eo & Lo). rewrite Eo. cbn [bind].
    destruct (velocity_rank dim cells nodes labels epart r (Dr r) VM (PAr r Hr) (CS r Hr) E g old AF Lo) as (vf & vc & Ec & Q1 & Q2 & Q3 & Q4 & Q5). exists (vf, vc, Ec). cbn [fst snd]. split; [exact Q1|]. auto. }
  rewrite EV. cbn [bind].
  destruct (mapM_ranks (fun r => do D <- get Ds r; do u <- get vel r; Model_streamer.time_step_streamer (snd (fst u)) (snd u) cfl (dm_normal D) (dm_mesure D) (dm_volume D) (dm_faceid D) (dm_dim D))
    (fun r o => exists dt, o = Some dt /\ (0 < dt <= 1000000)%R /\
     let speed c := full_speed cells nodes (mean_velocity dim cells DR c) (P3 (electron_diffusivity (mean_velocity dim cells E c) (mean_velocity dim cells DR c)) 0 0) c in
     (forall c, iscell_of (Dr r) c -> mean_velocity dim cells E (gcell (Dr r) c) <> vzero -> dt * speed (gcell (Dr r) c) <= cfl * measure_of cells nodes (gcell (Dr r) c))%R /\
     (dt = 1000000%R \/ exists c, iscell_of (Dr r) c /\ mean_velocity dim cells E (gcell (Dr r) c) <> vzero /\ (0 < speed (gcell (Dr r) c))%R /\ (dt * speed (gcell (Dr r) c) = cfl * measure_of cells nodes (gcell (Dr r) c))%R)) SIZE ltac:(lia)) as (dts & ED & LD & VD).
  { intros r Hr. rewrite (dom r Hr). cbn [bind]. destruct (VV r Hr) as (u & Eu & _ & _ & L2 & L3 & Vu). rewrite Eu. cbn [bind].
    destruct (timestep_rank dim cells nodes labels epart r (Dr r) VM (PAr r Hr) (CS r Hr) (mean_velocity dim cells DR) (mean_velocity dim cells E) (snd (fst u)) (snd u) cfl L2 L3 HCFL Vu) as (dt & E1 & B & A1 & A2). exists (Some dt). split; [exact E1|]. exists dt. auto. }
  rewrite ED. cbn [bind]. destruct (streamer_min E cfl dts HCFL LD) as (dt & EM & PD & LS). { intros r Hr. destruct (VD r Hr) as (o & Eo & _ & Q). exists o. split; [exact Eo | exact Q]. }
  rewrite EM. pose proof HN as (ws & LWs & (_ & HW) & HNr). pose proof HI as (LI & HIr).
  destruct (mapM_ranks (fun r => do D <- get Ds r; do v <- get (sk_ne s) r; do u <- get vel r; do ne <- cell_of v; Model_streamer.source_streamer ne (snd (fst u)) (snd u) (dm_center D) 0)
     (fun r src => zlen src = zlen (dm_center (Dr r)) /\ forall c, iscell_of (Dr r) c -> nthZ (0, 0)%R src c = (produced dim cells E X (gcell (Dr r) c), produced dim cells E X (gcell (Dr r) c))) SIZE ltac:(lia)) as (src & ES & LSr & VSr).
  { intros r Hr. rewrite (dom r Hr). cbn [bind]. destruct (HNr r Hr) as (v & Ev & FV). rewrite Ev. cbn [bind]. destruct (VV r Hr) as (u & Eu & _ & _ & L2 & L3 & Vu). rewrite Eu. cbn [bind]. rewrite (full_cell _ _ _ _ _ FV). cbn [bind]. destruct (HW r Hr) as (W1 & W2). destruct (sizes r Hr) as (Z1 & _).
    apply (source_rank dim cells nodes labels epart r (Dr r) (PAr r Hr) (mean_velocity dim cells DR) (mean_velocity dim cells E) X); [lia | exact L2 | exact L3|]. intros c Hc. split; [exact (W2 c Hc) | exact (Vu c Hc)]. }
  rewrite ES. cbn [bind]. replace (fresh || (order =? 2)) with true by (destruct FO as [-> | ->]; [reflexivity | rewrite orb_true_r; reflexivity]).
  destruct (cell_gradient_ok dim SIZE cells nodes labels npart0 epart st VM PL VS RP SC CS HX bc vs BV CW SP X _ HN) as (l1 & gs & Sl & Ps & EG & HS1 & HSl & (LGs & HGs)). rewrite EG. cbn [bind fst snd].
  pose proof HS1 as (ws1 & L1 & V1 & H1).
  destruct (mapM_ranks (fun r => do D <- get Ds r; do v <- get l1 r; do G <- get gs r; do u <- get vel r; convective_with order (fst (fst u)) D v G)
     (fun r rez => zlen rez = zlen (dm_center (Dr r)) /\ forall c, iscell_of (Dr r) c -> let c' := gcell (Dr r) c in nthZ 0%R rez c = (- rsum (map (fun F => carried dim cells nodes labels bc vs order (DR c' F) X Sl Ps c' F) (facets (cell cells c'))))%R) SIZE ltac:(lia)) as (rez & EZ & LZ & HZ).
  { intros r Hr. rewrite (dom r Hr). cbn [bind]. destruct (H1 r Hr) as (v & W & Ev & _ & EA & SEs). rewrite Ev. cbn [bind]. destruct (HGs r Hr) as (G & EGr & GL & GC & GH). rewrite EGr. cbn [bind]. destruct (VV r Hr) as (u & Eu & _ & (Lx & Vx) & _). rewrite Eu. cbn [bind].
    apply (convective_with_ok dim SIZE cells nodes labels epart st VM RP CS bc vs order r X v W Sl Ps G (fst (fst u)) DR Hr EA SEs); [|exact GL | exact GC | exact GH | exact Lx | exact Vx]. intros c Hc. exact (slope_gradient _ _ _ _ _ (proj1 (HSl c Hc))). }
  rewrite EZ. cbn [bind].
  destruct (face_gradient_all dim SIZE cells nodes labels npart0 epart st VM PL VS RP SC CS HX bc vs BV CW SP X l1 (sk_gne s) (shows_holds _ _ _ _ _ _ _ _ _ _ HS1) GN) as (l2 & fs2 & N & G & EF2 & HS2 & HNd & HFs & (LFs & HFr)). rewrite EF2. cbn [bind fst snd].
  pose proof HS2 as (ws2 & L2 & V2 & H2). destruct V2 as (_ & V2).
  set (Y := fun c => (X c + dt * (rsum (map (electrons_entering dim cells nodes labels bc vs order E X Sl Ps G c) (facets (cell cells c))) / measure_of cells nodes c + produced dim cells E X c))%R).
  set (YI := fun c => (XI c + dt * produced dim cells E X c)%R).
  destruct (mapM_ranks (fun r => do D <- get Ds r; do v <- get l2 r; do ni <- get (sk_ni s) r; do z <- get rez r; do u <- get vel r; do e <- get gP r; do g <- get fs2 r; do sr <- get src r;
                    advance_streamer dt D v ni z (fst (fst u)) e g sr)
     (fun r q => exists w, vfull (dom_bc (Dr r)) bc vs w (fst q) /\ zlen w = zlen (dm_loctoglob (Dr r)) /\ zlen (snd q) = zlen (dm_loctoglob (Dr r)) /\ forall c, iscell_of (Dr r) c -> nthZ 0%R w c = Y (gcell (Dr r) c) /\ nthZ 0%R (snd q) c = YI (gcell (Dr r) c)) SIZE ltac:(lia)) as (nw & EW & LW & HWn).
  { intros r Hr. rewrite (dom r Hr). cbn [bind]. destruct (H2 r Hr) as (v & W & Ev & FV & _). rewrite Ev. cbn [bind]. rewrite (get_nthZ []) by lia. cbn [bind]. destruct (HZ r Hr) as (z & Ez & _ & Lz & Vz). rewrite Ez. cbn [bind]. destruct (VV r Hr) as (u & Eu & _ & AV & _). rewrite Eu. cbn [bind].
    destruct (proj2 FF r Hr) as (e & Ee & _). pose proof (field_rank E gP r e FF Hr Ee) as AE. rewrite Ee. cbn [bind]. destruct (HFr r Hr) as (g & Eg & AG). rewrite Eg. cbn [bind]. destruct (VSr r Hr) as (sr & Esr & _ & Lsr & Vsr). rewrite Esr. cbn [bind].
    destruct (V2 r Hr) as (Lw & Vw). destruct (sizes r Hr) as (Z1 & _). destruct (HIr r Hr) as (I1 & I2).
    destruct (advance_rank_ok dim cells nodes labels epart r (Dr r) VM (PAr r Hr) (CS r Hr) bc vs dt X XI E G (fun c F => carried dim cells nodes labels bc vs order (DR c F) X Sl Ps c F) (produced dim cells E X) (nthZ [] ws2 r) v (nthZ [] (sk_ni s) r) z (fst (fst u)) e g sr FV)
      as (v' & w' & n' & EA & FV' & LW' & LN' & VW'); [lia | lia | lia | lia | intros c Hc; split; [exact (Vw c Hc) | exact (I2 c Hc)] | exact Vz | exact Vsr | exact AE | exact AV | exact AG|].
    exists (v', n'). split; [exact EA|]. cbn [fst snd]. exists w'. split; [exact FV'|]. split; [exact LW'|]. split; [exact LN'|]. intros c Hc. destruct (VW' c Hc) as (A1 & A2). split; [exact A1 | exact A2]. }
  rewrite EW. cbn [bind].
  assert (GM : forall r, 0 <= r < SIZE -> exists q, get nw r = Ok q /\ get (map fst nw) r = Ok (fst q) /\ nthZ [] (map snd nw) r = snd q /\ exists w, vfull (dom_bc (Dr r)) bc vs w (fst q) /\ zlen w = zlen (dm_loctoglob (Dr r)) /\ zlen (snd q) = zlen (dm_loctoglob (Dr r)) /\ forall c, iscell_of (Dr r) c -> nthZ 0%R w c = Y (gcell (Dr r) c) /\ nthZ 0%R (snd q) c = YI (gcell (Dr r) c)).
  { intros r Hr. destruct (HWn r Hr) as (q & Eq & _ & Q). exists q. split; [exact Eq|]. split; [apply get_map; [exact Eq | lia]|]. split; [|exact Q]. destruct (get_ok_nthZ q _ _ _ Eq ltac:(lia)) as (_ & Eq'). rewrite (nthZ_map _ q) by lia. rewrite <- Eq'. reflexivity. }
  assert (HNW : holds bc vs Y (map fst nw)). { apply (holds_make dim SIZE cells nodes npart0 epart st VS bc vs); [rewrite zlen_map; exact LW|]. intros r Hr. destruct (GM r Hr) as (q & _ & Eq & _ & w & FV & Lw & _ & Vw). exists (fst q). split; [exact Eq|]. exists w. split; [exact FV|]. split; [exact Lw|]. intros c Hc. apply Vw. exact Hc. }
  assert (HIW : values_of 0%R SIZE Ds YI (map snd nw)). { split; [rewrite zlen_map; exact LW|]. intros r Hr. destruct (GM r Hr) as (q & _ & _ & -> & w & _ & _ & Lq & Vq). split; [exact Lq|]. intros c Hc. apply Vq. exact Hc. }
  exists (nthZ 0%R x), E, dt, Y, YI. split; [exact (solved b (concat es) (charge_of X XI) backend HSv (LB b) HSy)|]. split; [exact VP|]. split; [exact PD|]. split; [exact LS|]. split.
  { exists Sl, Ps, N, G. split; [split; [exact HSl|]; split; [exact HNd | exact HFs]|]. intros c Hc. split; reflexivity. }
  split; [intros e Ee; rewrite Ee; reflexivity|]. intros sv Esv. rewrite Esv. cbn [bind].
  assert (NX : exists nes, (if sv then interpolate_celltonode SIZE st (map fst nw) else ret (map fst nw)) = Ok nes /\ holds bc vs Y nes /\ (sv = true -> shows bc vs Y nes /\ Proofs_run11.node_values dim SIZE cells nodes labels st bc vs Y nes)).
  { destruct sv; [|exists (map fst nw); split; [reflexivity|]; split; [exact HNW | discriminate]].
    destruct (interpolate_ok dim SIZE cells nodes labels npart0 epart st VM PL VS RP SC CS HX bc vs BV CW SP Y _ HNW) as (l4 & E4 & HS4 & NV4). exists l4. split; [exact E4|]. split; [exact (shows_holds _ _ _ _ _ _ _ _ _ _ HS4) | auto]. }
  destruct NX as (nes & EX & HNX & SHX). rewrite EX. cbn [bind]. eexists. split; [reflexivity|]. cbn [sk_ne sk_ni sk_P sk_gne sk_gP sk_rhs sk_Ef sk_vf].
  assert (SZ : sized SIZE st gP). { intros r Hr. destruct (proj2 FF r Hr) as (g & Eg & Lg & _). exists g. auto. }
  assert (FVf : face_field dim cells SIZE st DR (map (fun u => fst (fst u)) vel)). { apply rank_field; [rewrite zlen_map; exact LV|]. intros r Hr. destruct (VV r Hr) as (u & Eu & _ & AV & _). exists (fst (fst u)). split; [apply (get_map (fun u => fst (fst u)) vel r u Eu); lia | exact AV]. }
  split; [|split; [exact FF|]; split; [exact FF|]; split; [exact FVf | exact SHX]].
  split; [exact HNX|]. split; [exact HIW|]. split; [exact HP'|]. split; [|split; [exact SZ|]; split; [exact RH'|]; split; [exact SZ|]].
  - intros r Hr. destruct (HFr r Hr) as (g & Eg & Lg & _). exists g. auto.
  - intros r Hr. destruct (proj2 FVf r Hr) as (g & Eg & Lg & _). exists g. auto.
Qed.

(** *** the loop *)
Context (sol : Model_linsys.solver) (ss : system) (es : list (list Model_linsys.entry)).
Hypothesis SOL : sol = Model_linsys.SMumps \/ sol = Model_linsys.SPetsc.
Hypothesis HB : forall r, 0 <= r < SIZE -> exists B, get (ss_bord ss) r = Ok B /\ Spec_linsys.boundary_data (dom_bc (Dr r)) bcp vsp B.
Hypothesis SY : forall user f, source sol cells SIZE st user f -> exists b, handed_rhs SIZE st sol ss user = Ok b /\
  forall x, zlen x = zlen cells -> (solves (concat es) b (zlen cells) x <-> poisson dim cells nodes labels bcp vsp f (nthZ 0%R x)).
Context (tfinal : R) (X0 XI0 : Z -> R) (saves : nat -> R -> res bool) (backend : nat -> list Model_linsys.entry -> list (option R) -> list R).
Hypothesis LB : forall k e b, zlen (backend k e b) = zlen cells.
Hypothesis SV : forall k, solving (zlen cells) (backend k).
Notation flow := (streamer_flow dim cells nodes labels bc vs bcp vsp order cfl tfinal X0 XI0).
(** what the ranks hold after n turns *)
Definition after_turns (n : nat) (t : R) (Y YI : Z -> R) (s : streamer_held) : Prop :=
  (exists P, streamer_state sol P Y YI s) /\ match n with O => True | Datatypes.S m => exists t0 dt X XI P E, flow m t0 X XI /\ t = (t0 + dt)%R /\
    ((exists P', poisson dim cells nodes labels bcp vsp (charge_of X XI) P') -> poisson dim cells nodes labels bcp vsp (charge_of X XI) P) /\ velocity_of dim cells nodes labels bcp vsp P E /\
    holds bcp vsp P (sk_P s) /\ face_field dim cells SIZE st E (sk_gP s) /\ face_field dim cells SIZE st E (sk_Ef s) /\ face_field dim cells SIZE st (fun c F => drift (E c F)) (sk_vf s) /\
    (saves m dt = Ok true -> shows bc vs Y (sk_ne s) /\ Proofs_run11.node_values dim SIZE cells nodes labels st bc vs Y (sk_ne s)) end.
(** in turn m it was decided whether to save *)
Definition turned (m : nat) : Prop := exists t dt X XI Y YI b, (0 < dt)%R /\ flow m t X XI /\ flow (Datatypes.S m) (t + dt)%R Y YI /\ saves m dt = Ok b.
Lemma streamer_loop_ok : forall fuel n t Y YI s, after_turns n t Y YI s -> flow n t Y YI -> (forall m, (m < n)%nat -> turned m) ->
  match streamer_loop fuel n fresh order cfl saves SIZE st sol ss es backend tfinal t s with
  | Err e => exists n' t' dt X' XI' Y' YI', (n <= n' < n + fuel)%nat /\ (0 < dt)%R /\ flow n' t' X' XI' /\ flow (Datatypes.S n') (t' + dt)%R Y' YI' /\ saves n' dt = Err e /\ (forall m, (m < n')%nat -> turned m)
  | Ok (Some (t', s')) => exists n' Y' YI', (n <= n' <= n + fuel)%nat /\ flow n' t' Y' YI' /\ (tfinal <= t')%R /\ after_turns n' t' Y' YI' s' /\ (forall m, (m < n')%nat -> turned m)
  | Ok None => exists t' Y' YI', flow (n + fuel)%nat t' Y' YI' /\ (t' < tfinal)%R /\ (forall m, (m < n + fuel)%nat -> turned m)
  end.
Proof.
  induction fuel as [|fuel IH]; intros n t Y YI s AF FL TU; cbn [streamer_loop].
  - destruct (Rlt_dec t tfinal) as [H|H].
    + exists t, Y, YI. rewrite Nat.add_0_r. auto.
    + exists n, Y, YI. split; [lia|]. split; [exact FL|]. split; [lra|]. split; [exact AF | exact TU].
  - destruct (Rlt_dec t tfinal) as [H|H].
    + destruct AF as ((P0 & DS) & _). destruct (streamer_turn_ok sol ss es (saves n) (backend n) P0 Y YI s SOL DS HB SY (LB n (concat es)) (SV n)) as (P & E & dt & Y' & YI' & HPo & VP & PD & LS & ST & EE & EO).
      pose proof (streamer_next dim cells nodes labels bc vs bcp vsp order cfl tfinal X0 XI0 n t Y YI P E dt Y' YI' FL H HPo VP LS ST) as FL'.
      destruct (saves n dt) as [b|e] eqn:ESv.
      * destruct (EO b eq_refl) as (s' & E1 & DS' & F1 & F2 & F3 & SHW). rewrite E1. cbn [bind fst snd].
        specialize (IH (Datatypes.S n) (t + dt)%R Y' YI' s'). assert (AF' : after_turns (Datatypes.S n) (t + dt) Y' YI' s').
        { split; [exists P; exact DS'|]. exists t, dt, Y, YI, P, E. split; [exact FL|]. split; [reflexivity|]. split; [exact HPo|]. split; [exact VP|]. split; [apply DS'|]. split; [exact F1|]. split; [exact F2|]. split; [exact F3|]. rewrite ESv. intros Q. injection Q as ->. exact (SHW eq_refl). }
        assert (TU' : forall m, (m < Datatypes.S n)%nat -> turned m). { intros m Hm. destruct (Nat.eq_dec m n) as [->|NE]; [|apply TU; lia]. exists t, dt, Y, YI, Y', YI', b. auto. }
        specialize (IH AF' FL' TU'). destruct (streamer_loop fuel _ fresh order cfl saves SIZE st sol ss es backend tfinal _ s') as [[(t', s'')|]|e].
        -- destruct IH as (n' & Y'' & YI'' & B & Q). exists n', Y'', YI''. split; [lia | exact Q].
        -- destruct IH as (t' & Y'' & YI'' & Q). exists t', Y'', YI''. replace (n + Datatypes.S fuel)%nat with (Datatypes.S n + fuel)%nat by lia. exact Q.
        -- destruct IH as (n' & t' & d & A1 & A2 & A3 & A4 & B & Q). exists n', t', d, A1, A2, A3, A4. split; [lia | exact Q].
      * rewrite (EE e eq_refl). cbn [bind]. exists n, t, dt, Y, YI, Y', YI'. split; [lia|]. auto 6.
    + exists n, Y, YI. split; [lia|]. split; [exact FL|]. split; [lra|]. split; [exact AF | exact TU].
Qed.
End Ranks35.

Section Start35.
Context (dim SIZE : Z) (cells : list (list Z)) (nodes : list pt) (labels npart0 epart : list Z) (st : setting).
Hypothesis VM : valid_mesh dim cells nodes labels.
Hypothesis PL : dim = 2 -> planar nodes.
Hypothesis VS : valid_split dim SIZE cells nodes npart0 epart.
Notation Ds := (se_domains st).
Notation Dr := (domain_of (se_domains st)).
Hypothesis RP : represents dim SIZE cells nodes labels epart Ds.
Hypothesis SC : star_connected dim cells.
Hypothesis CS : forall r, 0 <= r < SIZE -> consistent dim (Dr r).
Hypothesis SP : spanned dim cells nodes.
Context (condn condP : option (list (loc * bctype) * list (loc * bcval))).
Notation bc := (conditions dim condn).
Notation vs := (given_values condn).
Notation bcp := (conditions dim condP).
Notation vsp := (given_values condP).
Hypothesis BVp : bc_valid dim bcp vsp.
Hypothesis BV : bc_valid dim bc vs.
Lemma streamer_start_ok sol n0 i0 p00 X XI P0 : sol = Model_linsys.SMumps \/ sol = Model_linsys.SPetsc -> values_of 0%R SIZE Ds X n0 -> values_of 0%R SIZE Ds XI i0 -> values_of 0%R SIZE Ds P0 p00 ->
  exists s0 ss es, streamer_start condn condP SIZE st sol n0 i0 p00 = Ok (s0, ss, es) /\ streamer_state SIZE cells st bcp vsp bc vs sol P0 X XI s0 /\
    (forall r, 0 <= r < SIZE -> exists B, get (ss_bord ss) r = Ok B /\ Spec_linsys.boundary_data (dom_bc (Dr r)) bcp vsp B) /\
    forall user f, source sol cells SIZE st user f -> exists b, handed_rhs SIZE st sol ss user = Ok b /\
      forall x, zlen x = zlen cells -> (solves (concat es) b (zlen cells) x <-> poisson dim cells nodes labels bcp vsp f (nthZ 0%R x)).
Proof.
  intros HS HN HI HP. pose proof (size11 dim SIZE cells nodes npart0 epart VS) as S1. unfold streamer_start.
  destruct (made_ok dim SIZE cells nodes labels npart0 epart st VM VS RP CS condn X n0 BV HN) as (ne & EN & HNE). rewrite EN. cbn [bind].
  destruct (made_ok dim SIZE cells nodes labels npart0 epart st VM VS RP CS condP P0 p00 BVp HP) as (pl & EP & HPL). rewrite EP. cbn [bind].
  destruct (system_ok dim SIZE cells nodes labels npart0 epart st VM PL VS RP SC CS SP bcp vsp BVp sol P0 pl HS HPL) as (ss & es & E1 & E2 & HB & SY). rewrite E1. cbn [bind]. rewrite E2. cbn [bind].
  destruct (mapM_ranks (fun r => do D <- get Ds r; ret (zeros_like p0 (zlen (dm_cellid D)))) (fun r x => x = zeros_like p0 (zlen (dm_cellid (Dr r)))) SIZE ltac:(lia)) as (z & EZ & LZ & HZ).
  { intros r Hr. rewrite (dom11 dim SIZE cells nodes labels epart st RP r Hr). cbn [bind]. eauto. }
  rewrite EZ. cbn [bind].
  destruct (mapM_ranks (fun r => do D <- get Ds r; ret (zeros_like 0%R (match sol with Model_linsys.SPetsc => zlen (dm_center D) | _ => global_size st end))) (fun r x => x = zeros_like 0%R (match sol with Model_linsys.SPetsc => zlen (dm_center (Dr r)) | _ => zlen cells end)) SIZE ltac:(lia)) as (u & EU & LU & HU).
  { intros r Hr. rewrite (dom11 dim SIZE cells nodes labels epart st RP r Hr). cbn [bind]. rewrite (global_size_ok dim SIZE cells nodes labels npart0 epart st VS RP CS). eauto. }
  rewrite EU. cbn [bind]. eexists _, ss, es. split; [reflexivity|]. split; [|split; [exact HB | exact SY]].
  assert (SZ : sized SIZE st z). { intros r Hr. destruct (HZ r Hr) as (x & Ex & _ & ->). eexists. split; [exact Ex|]. apply zlen_zeros_like. apply zlen_nonneg. }
  split; [exact HNE|]. cbn [sk_ne sk_ni sk_P sk_gne sk_gP sk_rhs sk_Ef sk_vf]. split; [exact HI|]. split; [exact HPL|]. split; [exact SZ|]. split; [exact SZ|]. split; [|split; exact SZ].
  intros r Hr. destruct (HU r Hr) as (x & Ex & _ & ->). eexists. split; [exact Ex|]. destruct HS as [-> | ->].
  - split; [apply zlen_zeros_like, zlen_nonneg|]. intros g Hg _. apply zeros_any.
  - apply zlen_zeros_like, zlen_nonneg.
Qed.
End Start35.
