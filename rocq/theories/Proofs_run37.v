(** * Proofs_run37: the first turn of the streamer program when ghosts and halos have not been computed (C83). *)
From Coq Require Import Reals Rpower Lra Psatz Permutation Sorted.
From Verif Require Import Py PyLemmas Model_part Spec_part Model_label Model_conn Spec_conn Proofs_conn1 Proofs_conn2 Model_geom Spec_geom Proofs_geom1 Proofs_geom2 Proofs_geom3
  Model_halo Spec_halo Model_interp Spec_interp Proofs_interp4 Proofs_interp5 Proofs_interp6 Spec_lsq Proofs_lsq Properties_lsq Model_fvm Spec_fvm Proofs_fvm1 Proofs_fvm2 Properties_fvm Model_bc Spec_bc Spec_bc3 Proofs_label Proofs_bc Proofs_bc2 Proofs_bc3 Properties_bc3 Model_domain Spec_domain Proofs_domain1 Proofs_domain4
  Model_comm Model_parallel Spec_parallel Proofs_parallel1 Proofs_parallel6 Properties_parallel Model_run Spec_run Proofs_run1 Proofs_run2 Proofs_run3 Proofs_run4 Proofs_run5 Proofs_run6 Spec_run2 Model_run2 Proofs_run7 Proofs_run8 Proofs_run9 Proofs_run10 Proofs_run11 Proofs_run12 Proofs_run13 Proofs_run14 Proofs_run15 Spec_run3 Proofs_run16
  Model_poisson Spec_poisson Proofs_poisson1 Proofs_poisson2 Proofs_poisson3 Spec_poisson2 Spec_poisson3 Proofs_poisson4 Proofs_poisson6 Proofs_poisson7 Proofs_poisson8 Proofs_poisson9 Proofs_poisson10 Model_run4 Spec_run6 Proofs_run30 Proofs_run31 Proofs_run32 Proofs_run33 Model_run5 Spec_run7.
From Verif Require Model_linsys Spec_linsys.
Open Scope Z_scope.

From Verif Require Model_streamer.
From Verif Require Import Spec_streamer.
From Verif Require Proofs_streamer Proofs_streamer2 Properties_streamer.
From Verif Require Import Proofs_run34 Proofs_run35.


Section Ranks37.
Context (dim SIZE : Z) (cells : list (list Z)) (nodes : list pt) (labels npart0 epart : list Z) (st : setting).
Hypothesis VM : valid_mesh dim cells nodes labels.
Hypothesis PL : dim = 2 -> planar nodes.
Hypothesis VS : valid_split dim SIZE cells nodes npart0 epart.
Notation Ds := (se_domains st).
Notation Dr := (domain_of (se_domains st)).
Hypothesis RP : represents dim SIZE cells nodes labels epart Ds.
Hypothesis SC : star_connected dim cells.
Hypothesis CS : forall r, 0 <= r < SIZE -> consistent dim (Dr r).
Hypothesis HX : 1 < SIZE -> forall (V : Type) (d : V) (X : Z -> V) (w : list (list V)), values_of d SIZE Ds X w -> exists halo, update_halo_value SIZE (se_comms st) w = Ok halo /\ halo_values_of d SIZE Ds X halo.
Hypothesis SP : spanned dim cells nodes.
Hypothesis TC : get (se_tc st) 0 = Ok (concat (map (owned cells epart) (range SIZE))).
Notation PAr := (rp_part _ _ _ _ _ _ _ RP).
Notation holds := (holds SIZE st).
Notation shows := (shows dim SIZE cells nodes labels st).
Notation sizes := (Proofs_run5.sizes dim SIZE cells nodes labels epart st RP).
Notation size1 := (size11 dim SIZE cells nodes npart0 epart VS).
Notation dom r Hr := (dom11 dim SIZE cells nodes labels epart st RP r Hr).
Context (bcp : list (loc * bctype)) (vsp : list (loc * bcval)).
Hypothesis BVp : bc_valid dim bcp vsp.
Hypothesis CWp : corners_whole dim cells labels bcp epart.
Context (bc : list (loc * bctype)) (vs : list (loc * bcval)).
Hypothesis BV : bc_valid dim bc vs.
Hypothesis CW : corners_whole dim cells labels bc epart.
Notation r35 f := (f dim SIZE cells nodes labels npart0 epart st) (only parsing).
(** *** a new variable: zeros outside its own cells *)
Lemma empty_value c F x : only_cell dim cells c F -> boundary_value dim nodes labels (empty_outside dim) [] F x = 0%R.
Proof.
  intros OC. pose proof (vm_boundary _ _ _ _ VM c F OC) as B. destruct (side_of_label dim _ (wm_dim _ _ _ (vm_mesh _ _ _ _ VM)) B) as (l & Il & El). unfold boundary_value, empty_outside.
  destruct (find _ (map _ (sides dim))) as [(l', t)|] eqn:EF.
  - apply find_some in EF as (I1 & _). apply in_map_iff in I1 as (l2 & Q & _). injection Q as <- <-. reflexivity.
  - exfalso. pose proof (find_none _ _ EF (l, BDirichlet)) as Q. cbn [fst] in Q. rewrite El, Z.eqb_refl in Q. discriminate Q. apply in_map_iff. exists l. auto.
Qed.
Lemma made_blank cond X w0 l : bc_valid dim (conditions dim cond) (given_values cond) -> values_of 0%R SIZE Ds X w0 -> made cond SIZE st w0 = Ok l ->
  forall r, 0 <= r < SIZE -> exists v W, get l r = Ok v /\ arrays v = Ok W /\ sees dim SIZE cells nodes labels Ds (empty_outside dim) [] r (alone epart X r) W.
Proof.
  intros BVc HV E r Hr. pose proof size1 as S1. pose proof HV as (LW & HV'). destruct (HV' r Hr) as (Lw & Vw). unfold made in E.
  destruct (mapM_rank _ SIZE l r E Hr) as (_ & v' & Ev' & Ef). exists v'. rewrite (dom r Hr) in Ef. cbn [bind] in Ef. rewrite (get_nthZ []) in Ef by lia. cbn [bind] in Ef. pose proof (cs_bc _ _ (CS r Hr)) as WB.
  set (b := conditions dim cond) in *. set (x := given_values cond) in *.
  assert (EN : new_variable (dom_bc (Dr r)) (option_map fst cond) (option_map snd cond) = new_variable (dom_bc (Dr r)) (Some b) (Some x)).
  { unfold b, x. destruct cond as [(b' & x')|]; cbn [option_map fst snd conditions given_values]; [reflexivity|]. apply (default_open dim cells nodes labels epart r (Dr r) VM (PAr r Hr) (CS r Hr)). }
  rewrite EN in Ef. destruct (built_full (dom_bc (Dr r)) b x WB (distinct11 dim SIZE cells nodes labels epart st RP CS r Hr) (settings11 dim SIZE cells nodes labels epart st VM RP CS b x BVc r Hr)) as (s & Es & I & _).
  unfold new_variable in Ef. rewrite Es in Ef. cbn [bind] in Ef. cbn [va_cell] in Ef. unfold write_array in Ef. cbn [va_heap] in Ef.
  pose proof (i_frame _ _ _ _ I) as (FL & FR). change (zlen (vs_heap (init_state (dom_bc (Dr r))))) with 9 in *.
  rewrite (set_upd (vs_heap s) r_cell) in Ef by (unfold r_cell; lia). cbn [bind] in Ef. injection Ef as Ef.
  set (W := {| w_c := nthZ [] w0 r; w_ghost := zeros_like 0%R (zlen (bd_name (dom_bc (Dr r)))); w_halo := zeros_like 0%R (bd_nbhalos (dom_bc (Dr r))); w_haloghost := zeros_like 0%R (bd_sizehg (dom_bc (Dr r))) |}).
  exists W. split; [exact Ev'|]. split.
  - rewrite <- Ef. unfold arrays, cell_of, ghost_of. cbn [va_heap va_cell]. unfold r_cell, r_ghost, r_halo, r_haloghost. rewrite !(get_nthZ []) by (rewrite zlen_upd; lia). cbn [bind].
    rewrite nthZ_upd_eq by lia. rewrite !nthZ_upd_neq by lia.
    rewrite (proj2 (FR 3 ltac:(lia)) ltac:(cbn; intuition discriminate)), (proj2 (FR 2 ltac:(lia)) ltac:(cbn; intuition discriminate)), (proj2 (FR 4 ltac:(lia)) ltac:(cbn; intuition discriminate)). reflexivity.
  - destruct (sizes r Hr) as (Z1 & Z2). destruct (wb_size _ WB) as (B1 & B2 & B3 & B4). constructor; cbn [w_c w_ghost w_halo w_haloghost W].
    + unfold W. cbn [w_c w_ghost w_halo w_haloghost]. unfold wf_values. cbn [w_c w_ghost w_halo w_haloghost]. rewrite !zlen_zeros_like by (auto; apply zlen_nonneg).
      cbn [dom_bc bd_nbhalos bd_sizehg bd_name]. destruct (wb_len _ WB) as (_ & Q & _). cbn [dom_bc bd_cellid bd_name] in Q. split; [lia|]. split; [lia|]. auto.
    + intros c Hc. unfold W. cbn [w_c]. rewrite (Vw c Hc). unfold alone. destruct (gcell_owned dim cells nodes labels epart r (Dr r) (PAr r Hr) c Hc) as (_ & ->). rewrite Z.eqb_refl. reflexivity.
    + intros h Hh. unfold W. cbn [w_halo]. rewrite zeros_any. unfold alone. destruct (pa_halos _ _ _ _ _ _ _ (PAr r Hr)) as (_ & HH & _). destruct (proj1 (HH (ghalo (Dr r) h)) ltac:(exists h; auto)) as (_ & B & _). destruct (Z.eqb_spec (owner epart (ghalo (Dr r) h)) r); [contradiction | reflexivity].
    + intros f c OC Hf Ec. unfold W. cbn [w_ghost]. rewrite zeros_any. symmetry. exact (empty_value c _ _ OC).
    + intros k Hk E10. destruct (rp_ghosts _ _ _ _ _ _ _ RP r Hr) as (_ & R2 & _). destruct (R2 k Hk E10) as (FA & _). cbv zeta in FA.
      destruct (Forall2_nthZ _ (0, gpad) gpad _ _ FA) as (LL & _). apply (nthZ_Forall2 _ (0, gpad) gpad _ _ LL). intros j Hj. unfold W. cbn [w_haloghost]. rewrite zeros_any.
      set (se := nthZ (0, gpad) (others_at_node SIZE Ds r (gnode (Dr r) k)) j) in *. assert (Hse : In se (others_at_node SIZE Ds r (gnode (Dr r) k))) by (apply nthZ_In; exact Hj).
      destruct (other_facts dim SIZE cells nodes labels epart Ds VM PL RP r k se Hr Hk Hse) as (Q1 & Q2 & k' & K1 & K2 & GF). destruct GF as (G1 & G2 & G3 & G4 & G5 & G6 & G7 & G8 & G9).
      unfold mirrored, Proofs_run8.key2, key. cbn [fst snd]. symmetry. eapply empty_value. exact G6.
Qed.
(** *** the turn *)
Notation streamer_state := (streamer_state SIZE cells st bcp vsp bc vs).
Lemma streamer_first_ok order cfl sol ss es save backend P0 X XI s : order <> 2 -> (0 < cfl)%R -> (forall r, 0 <= r < SIZE -> exists v W, get (sk_ne s) r = Ok v /\ arrays v = Ok W /\ sees dim SIZE cells nodes labels Ds (empty_outside dim) [] r (alone epart X r) W) ->
  sol = Model_linsys.SMumps \/ sol = Model_linsys.SPetsc -> streamer_state sol P0 X XI s ->
  (forall r, 0 <= r < SIZE -> exists B, get (ss_bord ss) r = Ok B /\ Spec_linsys.boundary_data (dom_bc (Dr r)) bcp vsp B) ->
  (forall user f, source sol cells SIZE st user f -> exists b, handed_rhs SIZE st sol ss user = Ok b /\
      forall x, zlen x = zlen cells -> (solves (concat es) b (zlen cells) x <-> poisson dim cells nodes labels bcp vsp f (nthZ 0%R x))) ->
  (forall b, zlen (backend (concat es) b) = zlen cells) -> solving (zlen cells) backend ->
  exists P E dt Y YI, ((exists P', poisson dim cells nodes labels bcp vsp (charge_of X XI) P') -> poisson dim cells nodes labels bcp vsp (charge_of X XI) P) /\
    velocity_of dim cells nodes labels bcp vsp P E /\ (0 < dt)%R /\ largest_streamer dim cells nodes E cfl dt /\ blind_step dim cells nodes labels bc vs epart order E dt X XI Y YI /\
    (forall e, save dt = Err e -> streamer_turn false order cfl save SIZE st sol ss es backend s = Err e) /\
    (forall b, save dt = Ok b -> exists s', streamer_turn false order cfl save SIZE st sol ss es backend s = Ok (dt, s') /\ streamer_state sol P Y YI s' /\
       face_field dim cells SIZE st E (sk_gP s') /\ face_field dim cells SIZE st E (sk_Ef s') /\ face_field dim cells SIZE st (fun c F => drift (E c F)) (sk_vf s') /\
       (b = true -> shows bc vs Y (sk_ne s') /\ Proofs_run11.node_values dim SIZE cells nodes labels st bc vs Y (sk_ne s'))).
Proof.
  intros NO HCFL BL SOL (HN & HI & HP & GN & GP & RH & SE & SV) HB SY LB HSv. pose proof size1 as S1. unfold streamer_turn.
  destruct (charge_ok dim SIZE cells nodes labels npart0 epart st VS RP CS bc vs sol X XI _ _ _ SOL HN HI RH) as (rhs & ER & RH' & SRC). rewrite ER. cbn [bind].
  destruct (SY _ _ SRC) as (b & EB & HSy). set (x := backend (concat es) b) in *.
  destruct (solve_gradient_ok dim SIZE cells nodes labels npart0 epart st VM PL VS RP SC CS HX SP TC bcp vsp BVp CWp P0 (sk_P s) (sk_gP s) sol ss es _ b backend HP GP HB SOL EB (LB b)) as (Pl & gP & E & EP & HP' & FF & VP). rewrite EP. cbn [bind fst snd]. fold x in HP', VP.
  rewrite (field_copy dim SIZE cells nodes npart0 epart st VS gP (sk_Ef s) E FF SE). cbn [bind].
  set (DR := fun c F => drift (E c F)).
  destruct (mapM_ranks (fun r => do D <- get Ds r; do e <- get gP r; do u <- get (sk_vf s) r; Model_streamer.compute_velocity e u (dm_faceid D) (dm_dim D))
     (fun r u => at_faces (Dr r) DR (fst (fst u)) /\ zlen (snd (fst u)) = zlen (dm_center (Dr r)) /\ zlen (snd u) = zlen (dm_center (Dr r)) /\
        forall c, iscell_of (Dr r) c -> nthZ vzero (snd (fst u)) c = mean_velocity dim cells DR (gcell (Dr r) c) /\ nthZ vzero (snd u) c = mean_velocity dim cells E (gcell (Dr r) c)) SIZE ltac:(lia)) as (vel & EV & LV & VV).
  { intros r Hr. rewrite (dom r Hr). cbn [bind]. destruct (proj2 FF r Hr) as (g & Eg & _). pose proof (field_rank dim SIZE cells nodes labels epart st VM RP CS E gP r g FF Hr Eg) as AF. rewrite Eg. cbn [bind]. destruct (SV r Hr) as (old & Eo & Lo). rewrite Eo. cbn [bind].
    destruct (velocity_rank dim cells nodes labels epart r (Dr r) VM (PAr r Hr) (CS r Hr) E g old AF Lo) as (vf & vc & Ec & Q1 & Q2 & Q3 & Q4 & Q5). exists (vf, vc, Ec). cbn [fst snd]. split; [exact Q1|]. auto. }
  rewrite EV. cbn [bind].
  destruct (mapM_ranks (fun r => do D <- get Ds r; do u <- get vel r; Model_streamer.time_step_streamer (snd (fst u)) (snd u) cfl (dm_normal D) (dm_mesure D) (dm_volume D) (dm_faceid D) (dm_dim D))
    (fun r o => exists dt, o = Some dt /\ (0 < dt <= 1000000)%R /\
     let speed c := full_speed cells nodes (mean_velocity dim cells DR c) (P3 (electron_diffusivity (mean_velocity dim cells E c) (mean_velocity dim cells DR c)) 0 0) c in
     (forall c, iscell_of (Dr r) c -> mean_velocity dim cells E (gcell (Dr r) c) <> vzero -> dt * speed (gcell (Dr r) c) <= cfl * measure_of cells nodes (gcell (Dr r) c))%R /\
     (dt = 1000000%R \/ exists c, iscell_of (Dr r) c /\ mean_velocity dim cells E (gcell (Dr r) c) <> vzero /\ (0 < speed (gcell (Dr r) c))%R /\ (dt * speed (gcell (Dr r) c) = cfl * measure_of cells nodes (gcell (Dr r) c))%R)) SIZE ltac:(lia)) as (dts & ED & LD & VD).
  { intros r Hr. rewrite (dom r Hr). cbn [bind]. destruct (VV r Hr) as (u & Eu & _ & _ & L2 & L3 & Vu). rewrite Eu. cbn [bind].
    destruct (timestep_rank dim cells nodes labels epart r (Dr r) VM (PAr r Hr) (CS r Hr) (mean_velocity dim cells DR) (mean_velocity dim cells E) (snd (fst u)) (snd u) cfl L2 L3 HCFL Vu) as (dt & E1 & B & A1 & A2). exists (Some dt). split; [exact E1|]. exists dt. auto. }
  rewrite ED. cbn [bind]. destruct (streamer_min dim SIZE cells nodes labels npart0 epart st VM VS RP E cfl dts HCFL LD) as (dt & EM & PD & LS). { intros r Hr. destruct (VD r Hr) as (o & Eo & _ & Q). exists o. split; [exact Eo | exact Q]. }
  rewrite EM. pose proof HN as (ws & LWs & (_ & HW) & HNr). pose proof HI as (LI & HIr).
  destruct (mapM_ranks (fun r => do D <- get Ds r; do v <- get (sk_ne s) r; do u <- get vel r; do ne <- cell_of v; Model_streamer.source_streamer ne (snd (fst u)) (snd u) (dm_center D) 0)
     (fun r src => zlen src = zlen (dm_center (Dr r)) /\ forall c, iscell_of (Dr r) c -> nthZ (0, 0)%R src c = (produced dim cells E X (gcell (Dr r) c), produced dim cells E X (gcell (Dr r) c))) SIZE ltac:(lia)) as (src & ES & LSr & VSr).
  { intros r Hr. rewrite (dom r Hr). cbn [bind]. destruct (HNr r Hr) as (v & Ev & FV). rewrite Ev. cbn [bind]. destruct (VV r Hr) as (u & Eu & _ & _ & L2 & L3 & Vu). rewrite Eu. cbn [bind]. rewrite (full_cell _ _ _ _ _ FV). cbn [bind]. destruct (HW r Hr) as (W1 & W2). destruct (sizes r Hr) as (Z1 & _).
    apply (source_rank dim cells nodes labels epart r (Dr r) (PAr r Hr) (mean_velocity dim cells DR) (mean_velocity dim cells E) X); [lia | exact L2 | exact L3|]. intros c Hc. split; [exact (W2 c Hc) | exact (Vu c Hc)]. }
  rewrite ES. cbn [bind]. replace (false || (order =? 2)) with false by (destruct (Z.eqb_spec order 2); [contradiction | reflexivity]). cbn [bind fst snd].
  destruct (mapM_ranks (fun r => do D <- get Ds r; do v <- get (sk_ne s) r; do G <- get (map no_gradients Ds) r; do u <- get vel r; convective_with order (fst (fst u)) D v G)
     (fun r rez => zlen rez = zlen (dm_center (Dr r)) /\ forall c, iscell_of (Dr r) c -> let c' := gcell (Dr r) c in nthZ 0%R rez c = (- rsum (map (fun F => carried dim cells nodes labels (empty_outside dim) [] order (DR c' F) (alone epart X (owner epart c')) (fun _ => vzero) (fun _ => 0%R) c' F) (facets (cell cells c'))))%R) SIZE ltac:(lia)) as (rez & EZ & LZ & HZ).
  { intros r Hr. rewrite (dom r Hr). cbn [bind]. destruct (BL r Hr) as (v & W & Ev & EA & SEs). rewrite Ev. cbn [bind]. rewrite (get_map no_gradients Ds r (Dr r) (dom r Hr)) by (rewrite (rp_count _ _ _ _ _ _ _ RP); exact Hr). cbn [bind]. destruct (VV r Hr) as (u & Eu & _ & (Lx & Vx) & _). rewrite Eu. cbn [bind]. destruct (sizes r Hr) as (Z1 & Z2).
    destruct (convective_with_ok dim SIZE cells nodes labels epart st VM RP CS (empty_outside dim) [] order r (alone epart X r) v W (fun _ => vzero) (fun _ => 0%R) (no_gradients (Dr r)) (fst (fst u)) DR Hr EA SEs) as (rez & E1 & L1 & V1).
    - intros c Hc. intros _. reflexivity.
    - unfold no_gradients. cbn [gr_cell gr_psi gr_halo gr_psih]. rewrite !zlen_zeros_like by apply zlen_nonneg. auto.
    - intros c Hc. unfold no_gradients. cbn [gr_cell gr_psi]. rewrite (zeros_any 0%R). split; [exact (zeros_any p0 _ c) | reflexivity].
    - intros h Hh. unfold no_gradients. cbn [gr_halo gr_psih]. rewrite (zeros_any 0%R). split; [exact (zeros_any p0 _ h) | reflexivity].
    - exact Lx.
    - exact Vx.
    - exists rez. split; [exact E1|]. split; [exact L1|]. intros c Hc. cbv zeta. rewrite (proj2 (gcell_owned dim cells nodes labels epart r (Dr r) (PAr r Hr) c Hc)). exact (V1 c Hc). }
  rewrite EZ. cbn [bind].
  destruct (cell_gradient_ok dim SIZE cells nodes labels npart0 epart st VM PL VS RP SC CS HX bc vs BV CW SP X _ HN) as (l1 & gs & Sl & Ps & _ & _ & HSl & _).
  destruct (face_gradient_all dim SIZE cells nodes labels npart0 epart st VM PL VS RP SC CS HX bc vs BV CW SP X (sk_ne s) (sk_gne s) HN GN) as (l2 & fs2 & N & G & EF2 & HS2 & HNd & HFs & (LFs & HFr)). rewrite EF2. cbn [bind fst snd].
  pose proof HS2 as (ws2 & L2 & V2 & H2). destruct V2 as (_ & V2).
  set (CA := fun c F => carried dim cells nodes labels (empty_outside dim) [] order (DR c F) (alone epart X (owner epart c)) (fun _ => vzero) (fun _ => 0%R) c F).
  set (EN := fun c F => let D := electron_diffusivity (E c F) (DR c F) in (diffused cells nodes (P3 D D D) (G c F) c F - CA c F)%R).
  set (Y := fun c => (X c + dt * (rsum (map (EN c) (facets (cell cells c))) / measure_of cells nodes c + produced dim cells E X c))%R).
  set (YI := fun c => (XI c + dt * produced dim cells E X c)%R).
  destruct (mapM_ranks (fun r => do D <- get Ds r; do v <- get l2 r; do ni <- get (sk_ni s) r; do z <- get rez r; do u <- get vel r; do e <- get gP r; do g <- get fs2 r; do sr <- get src r;
                    advance_streamer dt D v ni z (fst (fst u)) e g sr)
     (fun r q => exists w, vfull (dom_bc (Dr r)) bc vs w (fst q) /\ zlen w = zlen (dm_loctoglob (Dr r)) /\ zlen (snd q) = zlen (dm_loctoglob (Dr r)) /\ forall c, iscell_of (Dr r) c -> nthZ 0%R w c = Y (gcell (Dr r) c) /\ nthZ 0%R (snd q) c = YI (gcell (Dr r) c)) SIZE ltac:(lia)) as (nw & EW & LW & HWn).
  { intros r Hr. rewrite (dom r Hr). cbn [bind]. destruct (H2 r Hr) as (v & W & Ev & FV & _). rewrite Ev. cbn [bind]. rewrite (get_nthZ []) by lia. cbn [bind]. destruct (HZ r Hr) as (z & Ez & _ & Lz & Vz). rewrite Ez. cbn [bind]. destruct (VV r Hr) as (u & Eu & _ & AV & _). rewrite Eu. cbn [bind].
    destruct (proj2 FF r Hr) as (e & Ee & _). pose proof (field_rank dim SIZE cells nodes labels epart st VM RP CS E gP r e FF Hr Ee) as AE. rewrite Ee. cbn [bind]. destruct (HFr r Hr) as (g & Eg & AG). rewrite Eg. cbn [bind]. destruct (VSr r Hr) as (sr & Esr & _ & Lsr & Vsr). rewrite Esr. cbn [bind].
    destruct (V2 r Hr) as (Lw & Vw). destruct (sizes r Hr) as (Z1 & _). destruct (HIr r Hr) as (I1 & I2).
    destruct (advance_rank_ok dim cells nodes labels epart r (Dr r) VM (PAr r Hr) (CS r Hr) bc vs dt X XI E G CA (produced dim cells E X) (nthZ [] ws2 r) v (nthZ [] (sk_ni s) r) z (fst (fst u)) e g sr FV)
      as (v' & w' & n' & EA & FV' & LW' & LN' & VW'); [lia | lia | lia | lia | intros c Hc; split; [exact (Vw c Hc) | exact (I2 c Hc)] | exact Vz | exact Vsr | exact AE | exact AV | exact AG|].
    exists (v', n'). split; [exact EA|]. cbn [fst snd]. exists w'. split; [exact FV'|]. split; [exact LW'|]. split; [exact LN'|]. intros c Hc. destruct (VW' c Hc) as (A1 & A2). split; [exact A1 | exact A2]. }
  rewrite EW. cbn [bind].
  assert (GM : forall r, 0 <= r < SIZE -> exists q, get nw r = Ok q /\ get (map fst nw) r = Ok (fst q) /\ nthZ [] (map snd nw) r = snd q /\ exists w, vfull (dom_bc (Dr r)) bc vs w (fst q) /\ zlen w = zlen (dm_loctoglob (Dr r)) /\ zlen (snd q) = zlen (dm_loctoglob (Dr r)) /\ forall c, iscell_of (Dr r) c -> nthZ 0%R w c = Y (gcell (Dr r) c) /\ nthZ 0%R (snd q) c = YI (gcell (Dr r) c)).
  { intros r Hr. destruct (HWn r Hr) as (q & Eq & _ & Q). exists q. split; [exact Eq|]. split; [apply get_map; [exact Eq | lia]|]. split; [|exact Q]. destruct (get_ok_nthZ q _ _ _ Eq ltac:(lia)) as (_ & Eq'). rewrite (nthZ_map _ q) by lia. rewrite <- Eq'. reflexivity. }
  assert (HNW : holds bc vs Y (map fst nw)). { apply (holds_make dim SIZE cells nodes npart0 epart st VS bc vs); [rewrite zlen_map; exact LW|]. intros r Hr. destruct (GM r Hr) as (q & _ & Eq & _ & w & FV & Lw & _ & Vw). exists (fst q). split; [exact Eq|]. exists w. split; [exact FV|]. split; [exact Lw|]. intros c Hc. apply Vw. exact Hc. }
  assert (HIW : values_of 0%R SIZE Ds YI (map snd nw)). { split; [rewrite zlen_map; exact LW|]. intros r Hr. destruct (GM r Hr) as (q & _ & _ & -> & w & _ & _ & Lq & Vq). split; [exact Lq|]. intros c Hc. apply Vq. exact Hc. }
  exists (nthZ 0%R x), E, dt, Y, YI. split; [exact (solved dim cells nodes labels VM bcp vsp b (concat es) (charge_of X XI) backend HSv (LB b) HSy)|]. split; [exact VP|]. split; [exact PD|]. split; [exact LS|]. split.
  { exists Sl, Ps, N, G. split; [split; [exact HSl|]; split; [exact HNd | exact HFs]|]. intros c Hc. split; reflexivity. }
  split; [intros e Ee; rewrite Ee; reflexivity|]. intros sv Esv. rewrite Esv. cbn [bind].
  assert (NX : exists nes, (if sv then interpolate_celltonode SIZE st (map fst nw) else ret (map fst nw)) = Ok nes /\ holds bc vs Y nes /\ (sv = true -> shows bc vs Y nes /\ Proofs_run11.node_values dim SIZE cells nodes labels st bc vs Y nes)).
  { destruct sv; [|exists (map fst nw); split; [reflexivity|]; split; [exact HNW | discriminate]].
    destruct (interpolate_ok dim SIZE cells nodes labels npart0 epart st VM PL VS RP SC CS HX bc vs BV CW SP Y _ HNW) as (l4 & E4 & HS4 & NV4). exists l4. split; [exact E4|]. split; [exact (shows_holds _ _ _ _ _ _ _ _ _ _ HS4) | auto]. }
  destruct NX as (nes & EX & HNX & SHX). rewrite EX. cbn [bind]. eexists. split; [reflexivity|]. cbn [sk_ne sk_ni sk_P sk_gne sk_gP sk_rhs sk_Ef sk_vf].
  assert (SZ : sized SIZE st gP). { intros r Hr. destruct (proj2 FF r Hr) as (g & Eg & Lg & _). exists g. auto. }
  assert (FVf : face_field dim cells SIZE st DR (map (fun u => fst (fst u)) vel)). { apply (rank_field dim SIZE cells nodes labels epart st RP); [rewrite zlen_map; exact LV|]. intros r Hr. destruct (VV r Hr) as (u & Eu & _ & AV & _). exists (fst (fst u)). split; [apply (get_map (fun u => fst (fst u)) vel r u Eu); lia | exact AV]. }
  split; [|split; [exact FF|]; split; [exact FF|]; split; [exact FVf | exact SHX]].
  split; [exact HNX|]. split; [exact HIW|]. split; [exact HP'|]. split; [|split; [exact SZ|]; split; [exact RH'|]; split; [exact SZ|]].
  - intros r Hr. destruct (HFr r Hr) as (g & Eg & Lg & _). exists g. auto.
  - intros r Hr. destruct (proj2 FVf r Hr) as (g & Eg & Lg & _). exists g. auto.
Qed.

End Ranks37.
