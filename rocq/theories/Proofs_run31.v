(** * Proofs_run31: the Darcy program on all the ranks (C80). *)
From Coq Require Import Reals Lra Psatz Permutation Sorted.
From Verif Require Import Py PyLemmas Model_part Spec_part Model_label Model_conn Spec_conn Proofs_conn1 Proofs_conn2 Model_geom Spec_geom Proofs_geom1 Proofs_geom2 Proofs_geom3
  Model_halo Spec_halo Model_interp Spec_interp Proofs_interp4 Proofs_interp5 Proofs_interp6 Spec_lsq Proofs_lsq Properties_lsq Model_fvm Spec_fvm Proofs_fvm1 Proofs_fvm2 Properties_fvm Model_bc Spec_bc Spec_bc3 Proofs_label Proofs_bc Proofs_bc2 Proofs_bc3 Properties_bc3 Model_domain Spec_domain Proofs_domain1 Proofs_domain4
  Model_comm Model_parallel Spec_parallel Proofs_parallel1 Proofs_parallel6 Properties_parallel Model_run Spec_run Proofs_run1 Proofs_run2 Proofs_run3 Proofs_run4 Proofs_run5 Proofs_run6 Spec_run2 Model_run2 Proofs_run7 Proofs_run8 Proofs_run9 Proofs_run10 Proofs_run11 Proofs_run12 Proofs_run13 Proofs_run14 Proofs_run15 Spec_run3 Proofs_run16
  Model_poisson Spec_poisson Proofs_poisson1 Proofs_poisson2 Proofs_poisson3 Spec_poisson2 Spec_poisson3 Proofs_poisson4 Proofs_poisson6 Proofs_poisson7 Proofs_poisson8 Proofs_poisson9 Proofs_poisson10 Model_run4 Spec_run6 Proofs_run30.
From Verif Require Model_linsys Spec_linsys.
Open Scope Z_scope.

Section Ranks31.
Context (dim SIZE : Z) (cells : list (list Z)) (nodes : list pt) (labels npart0 epart : list Z) (st : setting).
Hypothesis VM : valid_mesh dim cells nodes labels.
Hypothesis PL : dim = 2 -> planar nodes.
Hypothesis VS : valid_split dim SIZE cells nodes npart0 epart.
Notation Ds := (se_domains st).
Notation Dr := (domain_of (se_domains st)).
Hypothesis RP : represents dim SIZE cells nodes labels epart Ds.
Hypothesis SC : star_connected dim cells.
Hypothesis CS : forall r, 0 <= r < SIZE -> consistent dim (Dr r).
Hypothesis HX : 1 < SIZE -> forall (V : Type) (d : V) (X : Z -> V) (w : list (list V)), values_of d SIZE Ds X w -> exists halo, update_halo_value SIZE (se_comms st) w = Ok halo /\ halo_values_of d SIZE Ds X halo.
Hypothesis SP : spanned dim cells nodes.
Hypothesis TC : get (se_tc st) 0 = Ok (concat (map (owned cells epart) (range SIZE))).
Notation PAr := (rp_part _ _ _ _ _ _ _ RP).
Notation holds := (holds SIZE st).
Notation shows := (shows dim SIZE cells nodes labels st).
Notation sizes := (Proofs_run5.sizes dim SIZE cells nodes labels epart st RP).
Notation size1 := (size11 dim SIZE cells nodes npart0 epart VS).
Notation dom r Hr := (dom11 dim SIZE cells nodes labels epart st RP r Hr).
Notation Usum := (zlen (dm_cellid (Dr _))).

(** *** creation *)
Lemma made_ok cond X w0 : bc_valid dim (conditions dim cond) (given_values cond) -> values_of 0%R SIZE Ds X w0 ->
  exists l, made cond SIZE st w0 = Ok l /\ holds (conditions dim cond) (given_values cond) X l.
Proof.
  intros BV HV. pose proof size1 as S1. pose proof HV as (LW & HV'). unfold made. set (bc := conditions dim cond) in *. set (vs := given_values cond) in *.
  destruct (mapM_ranks (fun r => do D <- get Ds r; do w <- get w0 r; do v <- new_variable (dom_bc D) (option_map fst cond) (option_map snd cond); write_array v (va_cell v) w)
    (fun r v => vfull (dom_bc (Dr r)) bc vs (nthZ [] w0 r) v) SIZE ltac:(lia)) as (m & E & LL & HL).
  - intros r Hr. rewrite (dom r Hr). cbn [bind]. rewrite (get_nthZ []) by lia. cbn [bind]. pose proof (cs_bc _ _ (CS r Hr)) as WB.
    destruct (full_new (dom_bc (Dr r)) bc vs WB (distinct11 dim SIZE cells nodes labels epart st RP CS r Hr) (settings11 dim SIZE cells nodes labels epart st VM RP CS bc vs BV r Hr)) as (v & Ev & FV).
    assert (EN : new_variable (dom_bc (Dr r)) (option_map fst cond) (option_map snd cond) = Ok v).
    { unfold bc, vs in Ev. destruct cond as [(b & x)|]; cbn [option_map fst snd conditions given_values] in *; [exact Ev|]. rewrite (default_open dim cells nodes labels epart r (Dr r) VM (PAr r Hr) (CS r Hr)). exact Ev. }
    rewrite EN. cbn [bind]. rewrite (full_ref _ _ _ _ _ FV). destruct (wb_size _ WB) as (Q & _).
    destruct (full_write (dom_bc (Dr r)) bc vs _ v 0 (nthZ [] w0 r) FV) as (v' & EW & FV' & _); [lia | change (nthZ [] (vs_heap (init_state (dom_bc (Dr r)))) 0) with (zeros_like 0%R (bd_nbcells (dom_bc (Dr r)))); rewrite zlen_zeros_like by exact Q; cbn [dom_bc bd_nbcells]; rewrite (proj1 (HV' r Hr)); symmetry; apply sizes; exact Hr|].
    exists v'. split; [exact EW | exact FV'].
  - exists m. split; [exact E|]. exists w0. split; [exact LL|]. split; [exact HV|]. intros r Hr. destruct (HL r Hr) as (v & Ev & _ & H). exists v. auto.
Qed.

(** *** velocities *)
Definition sized (g : list (list pt)) : Prop := forall r, 0 <= r < SIZE -> exists x, get g r = Ok x /\ zlen x = zlen (dm_cellid (Dr r)).
Definition speeds (u : list (list R * list R * list R)) : Prop := forall r, 0 <= r < SIZE -> exists x, get u r = Ok x /\ vel_ok (Dr r) x /\ (dim = 2 -> forall c, iscell_of (Dr r) c -> nthZ 0%R (snd x) c = 0%R).
Lemma face_row r c f : 0 <= r < SIZE -> iscell_of (Dr r) c -> In f (nthZ [] (dm_faceid (Dr r)) c) -> has_facet dim cells (gcell (Dr r) c) (fset (Dr r) f) /\ gface (Dr r) f (fset (Dr r) f) /\ iscell cells (gcell (Dr r) c) /\ In (fset (Dr r) f) (facets (cell cells (gcell (Dr r) c))).
Proof.
  intros Hr Hc Hf. destruct (face_view dim cells nodes labels epart r (Dr r) VM (PAr r Hr) (CS r Hr) c f Hc Hf) as (_ & A & B & _). pose proof (proj1 A) as C. split; [exact A|]. split; [exact B|]. split; [exact C|]. apply (facets_iff dim cells nodes (vm_mesh _ _ _ _ VM) _ _ C). exact A.
Qed.
Lemma faces_from V gs : face_field dim cells SIZE st V gs -> (forall c F, iscell cells c -> In F (facets (cell cells c)) -> gradient dim (V c F)) ->
  exists fs, mapM (fun r => do D <- get Ds r; do g <- get gs r; ret (velocity_faces D g)) (range SIZE) = Ok fs /\ zlen fs = SIZE /\ forall r, 0 <= r < SIZE -> exists x, get fs r = Ok x /\ zlen x = zlen (dm_cellid (Dr r)) /\
    forall c f, iscell_of (Dr r) c -> In f (nthZ [] (dm_faceid (Dr r)) c) -> nthZ vzero x f = V (gcell (Dr r) c) (fset (Dr r) f).
Proof.
  intros (LG & HG) GV. pose proof size1 as S1.
  destruct (mapM_ranks (fun r => do D <- get Ds r; do g <- get gs r; ret (velocity_faces D g)) (fun r x => zlen x = zlen (dm_cellid (Dr r)) /\
    forall c f, iscell_of (Dr r) c -> In f (nthZ [] (dm_faceid (Dr r)) c) -> nthZ vzero x f = V (gcell (Dr r) c) (fset (Dr r) f)) SIZE ltac:(lia)) as (fs & E & L & H).
  - intros r Hr. rewrite (dom r Hr). cbn [bind]. destruct (HG r Hr) as (g & Eg & Lg & Vg). rewrite Eg. cbn [bind]. eexists. split; [reflexivity|]. unfold velocity_faces. rewrite (cs_dim _ _ (CS r Hr)).
    split; [destruct (dim =? 2); [rewrite zlen_map|]; exact Lg|]. intros c f Hc Hf. destruct (face_row r c f Hr Hc Hf) as (A & B & C & I0). specialize (Vg c f _ Hc A B).
    destruct (Z.eqb_spec dim 2) as [E2|]; [|exact Vg]. pose proof (proj2 (Proofs_run4.rows_ok dim cells nodes labels epart r (Dr r) (PAr r Hr) (CS r Hr) c Hc) f Hf) as If. unfold isface in If. destruct (faces_count dim cells nodes labels epart r (Dr r) (PAr r Hr) (CS r Hr)) as (_ & _ & FC).
    rewrite (nthZ_map _ vzero) by lia. rewrite Vg. pose proof (GV _ _ C I0 E2) as Q. destruct (V (gcell (Dr r) c) (fset (Dr r) f)) as [a b d]. cbn [px py pz] in *. rewrite Q. reflexivity.
  - exists fs. split; [exact E|]. split; [exact L|]. intros r Hr. destruct (H r Hr) as (x & Ex & _ & Q). exists x. split; [exact Ex | exact Q].
Qed.

(** *** the pressure *)
Context (bcp : list (loc * bctype)) (vsp : list (loc * bcval)).
Hypothesis BVp : bc_valid dim bcp vsp.
Hypothesis CWp : corners_whole dim cells labels bcp epart.
Lemma solve_gradient_ok P0 l g sol ss es user b (backend : list Model_linsys.entry -> list (option R) -> list R) : holds bcp vsp P0 l -> sized g ->
  (forall r, 0 <= r < SIZE -> exists B, get (ss_bord ss) r = Ok B /\ Spec_linsys.boundary_data (dom_bc (Dr r)) bcp vsp B) ->
  sol = Model_linsys.SMumps \/ sol = Model_linsys.SPetsc -> handed_rhs SIZE st sol ss user = Ok b -> zlen (backend (concat es) b) = zlen cells ->
  let P := nthZ 0%R (backend (concat es) b) in
  exists l' gs V, solve_gradient backend SIZE st sol ss es l user g = Ok (l', gs) /\ holds bcp vsp P l' /\ face_field dim cells SIZE st V gs /\ velocity_of dim cells nodes labels bcp vsp P V.
Proof.
  intros HO HG HB HS EH LX P. unfold solve_gradient.
  destruct (deliver_ok dim SIZE cells nodes labels npart0 epart st VS RP CS TC bcp vsp P0 l _ HO LX) as (l1 & E1 & HO1 & _).
  assert (ES : solve backend SIZE st sol ss es l user = Ok l1). { unfold solve. destruct HS as [-> | ->]; rewrite EH; cbn [bind]; exact E1. }
  rewrite ES. cbn [bind]. fold P in HO1.
  destruct (solution_gradient_ok dim SIZE cells nodes labels npart0 epart st VM PL VS RP SC CS HX bcp vsp BVp CWp SP P l1 (ss_bord ss) g HO1 HB HG) as (l' & gs & N & G & E2 & E3 & _ & _ & FF & HN & HSl).
  exists l', gs, G. split; [exact E2|]. split.
  - destruct (interpolate_ok dim SIZE cells nodes labels npart0 epart st VM PL VS RP SC CS HX bcp vsp BVp CWp SP P l1 HO1) as (l2 & E4 & SH & _). rewrite E3 in E4. injection E4 as <-. exact (shows_holds _ _ _ _ _ _ _ _ _ _ SH).
  - split; [exact FF|]. exists N. split; [exact HN | exact HSl].
Qed.
Lemma velocity_planar P V : velocity_of dim cells nodes labels bcp vsp P V -> forall c F, iscell cells c -> In F (facets (cell cells c)) -> gradient dim (V c F).
Proof.
  intros (N & _ & H) c F Hc HF E2. destruct (H c F Hc HF) as (G & _). specialize (G E2). unfold Spec_linsys.vneg in G. cbn [pz] in G. lra.
Qed.

(** *** the density *)
Context (bc : list (loc * bctype)) (vs : list (loc * bcval)).
Hypothesis BV : bc_valid dim bc vs.
Hypothesis CW : corners_whole dim cells labels bc epart.
Context (order : Z) (K : pt) (cfl : R).
Hypothesis HCFL : (0 < cfl)%R.
Hypothesis HK : (0 <= px K + py K + pz K)%R.
Notation sees := (sees dim SIZE cells nodes labels Ds bc vs).

Lemma convective_with_ok r X v W Sl Ps G vel (V : Z -> list Z -> pt) : 0 <= r < SIZE -> arrays v = Ok W -> sees r X W -> (forall c, iscell cells c -> gradient dim (Sl c)) ->
  zlen (gr_cell G) = zlen (dm_loctoglob (Dr r)) /\ zlen (gr_psi G) = zlen (dm_loctoglob (Dr r)) /\ zlen (gr_halo G) = zlen (dm_hext (Dr r)) /\ zlen (gr_psih G) = zlen (dm_hext (Dr r)) ->
  (forall c, iscell_of (Dr r) c -> nthZ vzero (gr_cell G) c = Sl (gcell (Dr r) c) /\ nthZ 0%R (gr_psi G) c = Ps (gcell (Dr r) c)) ->
  (forall h, ishalo_of (Dr r) h -> nthZ vzero (gr_halo G) h = Sl (ghalo (Dr r) h) /\ nthZ 0%R (gr_psih G) h = Ps (ghalo (Dr r) h)) ->
  zlen vel = zlen (dm_cellid (Dr r)) -> (forall c f, iscell_of (Dr r) c -> In f (nthZ [] (dm_faceid (Dr r)) c) -> nthZ vzero vel f = V (gcell (Dr r) c) (fset (Dr r) f)) ->
  exists rez, convective_with order vel (Dr r) v G = Ok rez /\ zlen rez = zlen (dm_center (Dr r)) /\
  forall c, iscell_of (Dr r) c -> let c' := gcell (Dr r) c in nthZ 0%R rez c = (- rsum (map (fun F => carried dim cells nodes labels bc vs order (V c' F) X Sl Ps c' F) (facets (cell cells c'))))%R.
Proof.
  intros Hr EA SE HG (Z1 & Z2 & Z3 & Z4) HC HHl LV HV. unfold convective_with. rewrite EA. cbn [bind]. rewrite (cs_dim _ _ (CS r Hr)). set (D := Dr r) in *. pose proof (PAr r Hr) as PA. pose proof (CS r Hr) as CSr. fold D in PA, CSr.
  destruct (sizes r Hr) as (SZ1 & SZ2). fold D in SZ1, SZ2. destruct (cs_fv _ _ CSr) as (WFV & WL). destruct (se_wf _ _ _ _ _ _ _ _ _ _ _ SE) as (W1 & W2 & W3 & _). fold D in W1, W2, W3. set (A := {| ad_c := w_c W |}).
  assert (WA : wf_advected (dom_fv D) A vel). { unfold wf_advected, A. cbn [ad_c ad_grad ad_psi ad_halo ad_gradh ad_psih ad_ghost dom_fv fv_centerc fv_centerh fv_cellid]. repeat (split; [lia|]). exact LV. }
  destruct (C29_convection_conservative dim order (dom_fv D) (dom_lists D) A _ WFV WL WA) as (rez & ER & LR & VR & _). cbn [dom_fv fv_centerc] in LR, VR. change (fv_centerc (dom_fv D)) with (dm_center D) in ER. exists rez. split; [exact ER|]. split; [exact LR|].
  intros c Hc. rewrite VR by (unfold iscell_of in Hc; lia). f_equal. apply (sum_faces dim cells nodes labels epart r D VM PA CSr); [exact Hc|]. intros f Hf.
  rewrite (carried_at dim cells nodes labels epart r D VM PA CSr bc vs X order Sl Ps A vel c f); [rewrite (HV c f Hc Hf); reflexivity | exact HG | | | | exact Hc | exact Hf].
  - intros d Hd. unfold A. cbn [ad_c ad_grad ad_psi]. destruct (HC d Hd). split; [exact (se_cell _ _ _ _ _ _ _ _ _ _ _ SE d Hd)|]. auto.
  - intros h Hh. unfold A. cbn [ad_halo ad_gradh ad_psih]. destruct (HHl h Hh). split; [exact (se_halo _ _ _ _ _ _ _ _ _ _ _ SE h Hh)|]. auto.
  - unfold A. cbn [ad_ghost]. exact (se_ghost _ _ _ _ _ _ _ _ _ _ _ SE).
Qed.

(** the time step of all the ranks *)
Lemma driven_min (M : Z -> pt) dts : zlen dts = SIZE -> (forall r, 0 <= r < SIZE -> exists o, get dts r = Ok o /\ exists dt, o = Some dt /\ (0 < dt <= 1000000)%R /\
     (forall c, iscell_of (Dr r) c -> dt * full_speed cells nodes (M (gcell (Dr r) c)) K (gcell (Dr r) c) <= cfl * measure_of cells nodes (gcell (Dr r) c))%R /\
     (dt = 1000000%R \/ exists c, iscell_of (Dr r) c /\ (0 < full_speed cells nodes (M (gcell (Dr r) c)) K (gcell (Dr r) c))%R /\ (dt * full_speed cells nodes (M (gcell (Dr r) c)) K (gcell (Dr r) c) = cfl * measure_of cells nodes (gcell (Dr r) c))%R)) ->
  exists dt, allreduce_min dts = Some dt /\ (0 < dt)%R /\ ((dt <= 1000000)%R /\ forall c, iscell cells c -> (dt * full_speed cells nodes (M c) K c <= cfl * measure_of cells nodes c)%R) /\
    forall d, ((d <= 1000000)%R /\ forall c, iscell cells c -> (d * full_speed cells nodes (M c) K c <= cfl * measure_of cells nodes c)%R) -> (d <= dt)%R.
Proof.
  intros LD HD0. pose proof size1 as S1.
  assert (HD : forall r, 0 <= r < SIZE -> exists dt, nthZ None dts r = Some dt /\ (0 < dt <= 1000000)%R /\
     (forall c, iscell_of (Dr r) c -> dt * full_speed cells nodes (M (gcell (Dr r) c)) K (gcell (Dr r) c) <= cfl * measure_of cells nodes (gcell (Dr r) c))%R /\
     (dt = 1000000%R \/ exists c, iscell_of (Dr r) c /\ (0 < full_speed cells nodes (M (gcell (Dr r) c)) K (gcell (Dr r) c))%R /\ (dt * full_speed cells nodes (M (gcell (Dr r) c)) K (gcell (Dr r) c) = cfl * measure_of cells nodes (gcell (Dr r) c))%R)).
  { intros r Hr. destruct (HD0 r Hr) as (o & Eo & dt & -> & H). rewrite (get_nthZ None) in Eo by lia. injection Eo as Eo. exists dt. split; [exact Eo | exact H]. }
  destruct (allreduce_ok dts) as (dt & E & (i & Hi & Ei) & ML); [lia | intros j Hj; destruct (HD j ltac:(lia)) as (x & Ex & _); exists x; exact Ex|].
  exists dt. split; [exact E|]. destruct (HD i ltac:(lia)) as (dt' & E' & B & F & Mx). rewrite Ei in E'. injection E' as <-. split; [lra|]. split.
  - split; [lra|]. intros c Hc. destruct (rank_of dim SIZE cells nodes labels npart0 epart st VS RP c Hc) as (r & a & Hr & Ha & <-).
    destruct (HD r Hr) as (dr & Er & Br & Fr & _). pose proof (ML r dr ltac:(lia) Er) as LE. specialize (Fr a Ha). eapply Rle_trans; [|exact Fr]. apply Rmult_le_compat_r; [|exact LE].
    apply speed_nonneg; [exact HK|]. pose proof (pa_cell _ _ _ _ _ _ _ (PAr r Hr) a Ha) as (_ & _ & MV & MP). unfold measure_of. rewrite <- MV. exact MP.
  - intros d (D1 & D2). destruct Mx as [->|(a & Ha & S0 & ES)]; [exact D1|]. specialize (D2 (gcell (Dr i) a) ltac:(exact (proj1 (gcell_owned dim cells nodes labels epart i (Dr i) (PAr i ltac:(lia)) a Ha)))). rewrite <- ES in D2. apply (Rmult_le_reg_r _ _ _ S0 D2).
Qed.

(** values per rank give a variable that holds a field *)
Lemma holds_make Y nw : zlen nw = SIZE -> (forall r, 0 <= r < SIZE -> exists v, get nw r = Ok v /\ exists w, vfull (dom_bc (Dr r)) bc vs w v /\ zlen w = zlen (dm_loctoglob (Dr r)) /\ forall c, iscell_of (Dr r) c -> nthZ 0%R w c = Y (gcell (Dr r) c)) -> holds bc vs Y nw.
Proof.
  intros LW HW. pose proof size1 as S1.
  destruct (mapM_ranks (fun r => do v <- get nw r; cell_of v) (fun r w => exists v, get nw r = Ok v /\ vfull (dom_bc (Dr r)) bc vs w v /\ zlen w = zlen (dm_loctoglob (Dr r)) /\ forall c, iscell_of (Dr r) c -> nthZ 0%R w c = Y (gcell (Dr r) c)) SIZE ltac:(lia)) as (ws & E & L & H).
  { intros r Hr. destruct (HW r Hr) as (v & Ev & w & FV & Lw & Vw). rewrite Ev. cbn [bind]. exists w. split; [exact (full_cell _ _ _ _ _ FV)|]. exists v. auto. }
  assert (Q : forall r, 0 <= r < SIZE -> exists v, get nw r = Ok v /\ vfull (dom_bc (Dr r)) bc vs (nthZ [] ws r) v /\ zlen (nthZ [] ws r) = zlen (dm_loctoglob (Dr r)) /\ forall c, iscell_of (Dr r) c -> nthZ 0%R (nthZ [] ws r) c = Y (gcell (Dr r) c)).
  { intros r Hr. destruct (H r Hr) as (w & Ew & _ & Q). rewrite (get_nthZ []) in Ew by lia. injection Ew as <-. exact Q. }
  exists ws. split; [exact LW|]. split; [split; [exact L|]|].
  - intros r Hr. destruct (Q r Hr) as (v & _ & _ & A & B). split; [exact A | exact B].
  - intros r Hr. destruct (Q r Hr) as (v & Ev & FV & _). exists v. auto.
Qed.

(** *** the turn *)
Context (spread : bool) (sol : Model_linsys.solver) (ss : system) (es : list (list Model_linsys.entry)) (b : list (option R)).
Hypothesis SOL : sol = Model_linsys.SMumps \/ sol = Model_linsys.SPetsc.
Hypothesis HBD : forall r, 0 <= r < SIZE -> exists B, get (ss_bord ss) r = Ok B /\ Spec_linsys.boundary_data (dom_bc (Dr r)) bcp vsp B.
Hypothesis HRH : handed_rhs SIZE st sol ss (map (fun _ => None) (range SIZE)) = Ok b.
(** the gradient of ne is zero as long as it is not computed *)
Definition resting (g : list (list pt)) : Prop := forall r f, 0 <= r < SIZE -> nthZ vzero (nthZ [] g r) f = vzero.
Definition darcy_state (P X : Z -> R) (s : darcy_held) : Prop :=
  holds bc vs X (dk_ne s) /\ holds bcp vsp P (dk_P s) /\ sized (dk_gne s) /\ (spread = false -> resting (dk_gne s)) /\ sized (dk_gP s) /\ speeds (dk_vel s).
Lemma darcy_turn_ok backend P0 X s : darcy_state P0 X s -> zlen (backend (concat es) b) = zlen cells ->
  let P := nthZ 0%R (backend (concat es) b) in
  exists dt s' V Y, darcy_turn spread order K cfl SIZE st sol ss es backend s = Ok (dt, s') /\ (0 < dt)%R /\ velocity_of dim cells nodes labels bcp vsp P V /\ largest_driven dim cells nodes V K cfl dt /\
    driven_step dim cells nodes labels bc vs order V (if spread then K else vzero) dt X Y /\ darcy_state P Y s' /\ shows bc vs Y (dk_ne s') /\ Proofs_run11.node_values dim SIZE cells nodes labels st bc vs Y (dk_ne s') /\ face_field dim cells SIZE st V (dk_gP s').
Proof.
  intros (HN & HP & GN & G0 & GP & SV) LB P. pose proof size1 as S1. unfold darcy_turn.
  destruct (solve_gradient_ok P0 (dk_P s) (dk_gP s) sol ss es (map (fun _ => None) (range SIZE)) b backend HP GP HBD SOL HRH LB) as (Pl & gP & V & EP & HP' & FF & VP). rewrite EP. cbn [bind fst snd]. fold P in HP', VP.
  pose proof (velocity_planar P V VP) as PV. destruct (faces_from V gP FF PV) as (fs & EF & LF & HF). rewrite EF. cbn [bind].
  destruct (mapM_ranks (fun r => do D <- get Ds r; do u <- get fs r; do old <- get (dk_vel s) r; velocity_cells D u old)
     (fun r u => vel_ok (Dr r) u /\ (dim = 2 -> forall c, iscell_of (Dr r) c -> nthZ 0%R (snd u) c = 0%R) /\
        forall c, iscell_of (Dr r) c -> nthZ vzero (components (fst (fst u)) (snd (fst u)) (snd u)) c = mean_velocity dim cells V (gcell (Dr r) c)) SIZE ltac:(lia)) as (vel & EV & LV & VV).
  { intros r Hr. rewrite (dom r Hr). cbn [bind]. destruct (HF r Hr) as (x & Ex & Lx & Vx). rewrite Ex. cbn [bind]. destruct (SV r Hr) as (old & Eo & VO & Z2). rewrite Eo. cbn [bind].
    apply (velocity_mean dim cells nodes labels epart r (Dr r) VM (PAr r Hr) (CS r Hr) x V old VO Lx Z2); [|exact Vx]. intros E2 c F Hc HFc. exact (PV c F Hc HFc E2). }
  rewrite EV. cbn [bind].
  destruct (update_values_full dim SIZE cells nodes labels npart0 epart st VM PL VS RP CS HX bc vs BV CW X _ HN) as (nes & EN & HNs). rewrite EN. cbn [bind].
  destruct (mapM_ranks (fun r => do D <- get Ds r; do u <- get vel r;
                  time_step (dm_dim D) (components (fst (fst u)) (snd (fst u)) (snd u)) (dm_normal D) cfl (dm_mesure D) (dm_volume D) (dm_faceid D) K)
     (fun r o => exists dt, o = Some dt /\ (0 < dt <= 1000000)%R /\
     (forall c, iscell_of (Dr r) c -> dt * full_speed cells nodes (mean_velocity dim cells V (gcell (Dr r) c)) K (gcell (Dr r) c) <= cfl * measure_of cells nodes (gcell (Dr r) c))%R /\
     (dt = 1000000%R \/ exists c, iscell_of (Dr r) c /\ (0 < full_speed cells nodes (mean_velocity dim cells V (gcell (Dr r) c)) K (gcell (Dr r) c))%R /\ (dt * full_speed cells nodes (mean_velocity dim cells V (gcell (Dr r) c)) K (gcell (Dr r) c) = cfl * measure_of cells nodes (gcell (Dr r) c))%R)) SIZE ltac:(lia)) as (dts & ED & LD & VD).
  { intros r Hr. rewrite (dom r Hr). cbn [bind]. destruct (VV r Hr) as (u & Eu & _ & (L1 & L2 & L3) & _ & EC). rewrite Eu. cbn [bind].
    destruct (timestep_with dim cells nodes labels epart r (Dr r) VM (PAr r Hr) (CS r Hr) (components (fst (fst u)) (snd (fst u)) (snd u)) K cfl) as (dt & E & B & A1 & A2); [unfold components; rewrite zlen_map, zlen_range by apply zlen_nonneg; exact L1 | exact HCFL | exact HK|].
    exists (Some dt). split; [exact E|]. exists dt. split; [reflexivity|]. split; [exact B|]. split.
    - intros c Hc. specialize (A1 c Hc). rewrite (EC c Hc) in A1. exact A1.
    - destruct A2 as [A2|(c & Hc & Q1 & Q2)]; [left; exact A2|right]. exists c. rewrite (EC c Hc) in Q1, Q2. auto. }
  rewrite ED. cbn [bind]. destruct (driven_min (mean_velocity dim cells V) dts LD) as (dt & EM & PD & LS). { intros r Hr. destruct (VD r Hr) as (o & Eo & _ & Q). exists o. split; [exact Eo | exact Q]. }
  rewrite EM.
  destruct (cell_gradient_ok dim SIZE cells nodes labels npart0 epart st VM PL VS RP SC CS HX bc vs BV CW SP X nes (shows_holds _ _ _ _ _ _ _ _ _ _ HNs)) as (l1 & gs & Sl & Ps & EG & HS1 & HSl & (LGs & HGs)). rewrite EG. cbn [bind fst snd].
  pose proof HS1 as (ws1 & L1 & V1 & H1).
  destruct (mapM_ranks (fun r => do D <- get Ds r; do v <- get l1 r; do G <- get gs r; do u <- get fs r; convective_with order u D v G)
     (fun r rez => zlen rez = zlen (dm_center (Dr r)) /\ forall c, iscell_of (Dr r) c -> let c' := gcell (Dr r) c in nthZ 0%R rez c = (- rsum (map (fun F => carried dim cells nodes labels bc vs order (V c' F) X Sl Ps c' F) (facets (cell cells c'))))%R) SIZE ltac:(lia)) as (rez & EZ & LZ & HZ).
  { intros r Hr. rewrite (dom r Hr). cbn [bind]. destruct (H1 r Hr) as (v & W & Ev & _ & EA & SE). rewrite Ev. cbn [bind]. destruct (HGs r Hr) as (G & EGr & GL & GC & GH). rewrite EGr. cbn [bind]. destruct (HF r Hr) as (x & Ex & Lx & Vx). rewrite Ex. cbn [bind].
    apply (convective_with_ok r X v W Sl Ps G x V Hr EA SE); [|exact GL | exact GC | exact GH | exact Lx | exact Vx]. intros c Hc. exact (slope_gradient _ _ _ _ _ (proj1 (HSl c Hc))). }
  rewrite EZ. cbn [bind].
  destruct (face_gradient_all dim SIZE cells nodes labels npart0 epart st VM PL VS RP SC CS HX bc vs BV CW SP X l1 (dk_gne s) (shows_holds _ _ _ _ _ _ _ _ _ _ HS1) GN) as (l2 & fs2 & N & G & EF2 & HS2 & HNd & HFs & (LFs & HFr)).
  set (K' := if spread then K else vzero).
  assert (FX : exists l3 g3, (if spread then compute_face_gradient SIZE st l1 (dk_gne s) else ret (l1, dk_gne s)) = Ok (l3, g3) /\ shows bc vs X l3 /\ sized g3 /\ (spread = false -> resting g3) /\
    forall r, 0 <= r < SIZE -> exists g, get g3 r = Ok g /\ forall c f, iscell_of (Dr r) c -> In f (nthZ [] (dm_faceid (Dr r)) c) -> nthZ vzero g f = (if spread then G (gcell (Dr r) c) (fset (Dr r) f) else vzero)).
  { destruct spread.
    - exists l2, fs2. split; [exact EF2|]. split; [exact HS2|]. split; [|split; [discriminate|]].
      + intros r Hr. destruct (HFr r Hr) as (g & Eg & Lg & _). exists g. auto.
      + intros r Hr. destruct (HFr r Hr) as (g & Eg & _ & Vg). exists g. split; [exact Eg|]. exact Vg.
    - exists l1, (dk_gne s). split; [reflexivity|]. split; [exact HS1|]. split; [exact GN|]. split; [intros _; exact (G0 eq_refl)|]. intros r Hr. destruct (GN r Hr) as (g & Eg & _). exists g. split; [exact Eg|]. intros c f _ _. destruct (get_ok_nthZ [] _ _ _ Eg ltac:(lia)) as (_ & ->). apply (G0 eq_refl r f Hr). }
  destruct FX as (l3 & g3 & E3 & HS3 & SZ3 & R3 & HG3). rewrite E3. cbn [bind fst snd]. pose proof HS3 as (ws3 & L3 & V3 & H3).
  set (Y := fun c => (X c + dt / measure_of cells nodes c * rsum (map (fun F => entering dim cells nodes labels bc vs order (V c F) K' X Sl Ps G c F) (facets (cell cells c))))%R).
  destruct (mapM_ranks (fun r => do D <- get Ds r; do v <- get l3 r; do z <- get rez r; do g <- get g3 r; update_rank K dt D v z g)
     (fun r v => exists w, vfull (dom_bc (Dr r)) bc vs w v /\ zlen w = zlen (dm_loctoglob (Dr r)) /\ forall c, iscell_of (Dr r) c -> nthZ 0%R w c = Y (gcell (Dr r) c)) SIZE ltac:(lia)) as (nw & EW & LW & HW).
  { intros r Hr. rewrite (dom r Hr). cbn [bind]. destruct (H3 r Hr) as (v & W & Ev & FV & _). rewrite Ev. cbn [bind]. destruct (HZ r Hr) as (z & Ez & _ & Lz & Vz). rewrite Ez. cbn [bind]. destruct (HG3 r Hr) as (g & Eg & Vg). destruct (SZ3 r Hr) as (g' & Eg' & Lg). rewrite Eg in Eg'. injection Eg' as <-. rewrite Eg. cbn [bind]. destruct V3 as (_ & V3). destruct (V3 r Hr) as (Lw & Vw).
    destruct (update_rank_ok dim SIZE cells nodes labels epart st VM RP CS bc vs K r X _ v dt z g (fun c F => carried dim cells nodes labels bc vs order (V c F) X Sl Ps c F) (fun c F => if spread then G c F else vzero) Hr FV Lw Vw Lz Vz Lg Vg) as (v' & w' & E & FV' & LW' & VW'). exists v'. split; [exact E|]. exists w'. split; [exact FV'|]. split; [exact LW'|].
    intros c Hc. rewrite (VW' c Hc). unfold Y. f_equal. f_equal. apply rsum_map_ext. intros F _. unfold entering, K'. destruct spread; [reflexivity|]. unfold diffused, vzero, vdot. cbn [px py pz]. ring. }
  rewrite EW. cbn [bind].
  assert (HNW : holds bc vs Y nw) by (apply holds_make; [exact LW|]; intros r Hr; destruct (HW r Hr) as (v & Ev & _ & Q); exists v; auto).
  destruct (interpolate_ok dim SIZE cells nodes labels npart0 epart st VM PL VS RP SC CS HX bc vs BV CW SP Y nw HNW) as (l4 & E4 & HS4 & NV4). rewrite E4. cbn [bind].
  eexists dt, _, V, Y. split; [reflexivity|]. cbn [dk_ne dk_P dk_gne dk_gP dk_vel]. split; [exact PD|]. split; [exact VP|]. split; [exact LS|]. split; [|split; [|split; [exact HS4 | split; [exact NV4 | exact FF]]]].
  - exists Sl, Ps, N, G. split; [split; [exact HSl|]; split; [exact HNd | exact HFs]|]. intros c Hc. reflexivity.
  - split; [exact (shows_holds _ _ _ _ _ _ _ _ _ _ HS4)|]. split; [exact HP'|]. split; [exact SZ3|]. split; [exact R3|]. split.
    + intros r Hr. destruct FF as (_ & FF). destruct (FF r Hr) as (g & Eg & Lg & _). exists g. auto.
    + intros r Hr. destruct (VV r Hr) as (u & Eu & _ & A & B & _). exists u. auto.
Qed.

(** *** the loop *)
Context (tfinal : R) (X0 : Z -> R) (backend : nat -> list Model_linsys.entry -> list (option R) -> list R).
Hypothesis LBk : forall k, zlen (backend k (concat es) b) = zlen cells.
Notation pressure k := (nthZ 0%R (backend k (concat es) b)).
Notation flow := (darcy_flow dim cells nodes labels bc vs bcp vsp spread order K cfl tfinal (fun k => pressure k) X0).
(** what the ranks hold after n turns *)
Definition after (n : nat) (Y : Z -> R) (s : darcy_held) : Prop :=
  (exists P, darcy_state P Y s) /\ match n with O => True | Datatypes.S m => holds bcp vsp (pressure m) (dk_P s) /\ shows bc vs Y (dk_ne s) /\ Proofs_run11.node_values dim SIZE cells nodes labels st bc vs Y (dk_ne s) /\
    exists V, velocity_of dim cells nodes labels bcp vsp (pressure m) V /\ face_field dim cells SIZE st V (dk_gP s) end.
Lemma darcy_loop_ok : forall fuel n t Y s, after n Y s -> flow n t Y ->
  exists o, darcy_loop fuel n spread order K cfl SIZE st sol ss es backend tfinal t s = Ok o /\
    match o with
    | Some (t', s') => exists n' Y', (n <= n' <= n + fuel)%nat /\ flow n' t' Y' /\ (tfinal <= t')%R /\ after n' Y' s'
    | None => exists t' Y', flow (n + fuel)%nat t' Y' /\ (t' < tfinal)%R
    end.
Proof.
  induction fuel as [|fuel IH]; intros n t Y s AF FL; cbn [darcy_loop].
  - destruct (Rlt_dec t tfinal) as [H|H]; eexists; (split; [reflexivity|]).
    + exists t, Y. rewrite Nat.add_0_r. auto.
    + exists n, Y. split; [lia|]. split; [exact FL|]. split; [lra | exact AF].
  - destruct (Rlt_dec t tfinal) as [H|H].
    + destruct AF as ((P & DS) & _). destruct (darcy_turn_ok (backend n) P Y s DS (LBk n)) as (dt & s' & V & Y' & E & PD & VV & LS & ST & DS' & SH & NV & FF). rewrite E. cbn [bind fst snd].
      destruct (IH (Datatypes.S n) (t + dt)%R Y' s') as (o & EO & HO).
      * split; [exists (pressure n); exact DS'|]. split; [apply DS'|]. split; [exact SH|]. split; [exact NV|]. exists V. auto.
      * apply (flow_turn dim cells nodes labels bc vs bcp vsp spread order K cfl tfinal _ X0 n t Y V dt Y' FL H VV LS ST).
      * exists o. split; [exact EO|]. destruct o as [(t', s'')|].
        -- destruct HO as (n' & Y'' & B & Q). exists n', Y''. split; [lia | exact Q].
        -- destruct HO as (t' & Y'' & Q). exists t', Y''. replace (n + Datatypes.S fuel)%nat with (Datatypes.S n + fuel)%nat by lia. exact Q.
    + eexists. split; [reflexivity|]. exists n, Y. split; [lia|]. split; [exact FL|]. split; [lra | exact AF].
Qed.
End Ranks31.
