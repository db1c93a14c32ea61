(** * Proofs_run30: one rank: fluxes with a velocity per face, cell velocities, time step; variables without conditions (C80). *)
From Coq Require Import Reals Lra Psatz Permutation Sorted.
From Verif Require Import Py PyLemmas Model_part Spec_part Model_label Model_conn Spec_conn Proofs_conn1 Proofs_conn2 Model_geom Spec_geom Proofs_geom1 Proofs_geom2 Proofs_geom3
  Model_halo Spec_halo Model_interp Spec_interp Proofs_interp4 Proofs_interp5 Proofs_interp6 Spec_lsq Proofs_lsq Properties_lsq Model_fvm Spec_fvm Proofs_fvm1 Proofs_fvm2 Properties_fvm Model_bc Spec_bc Spec_bc3 Proofs_label Proofs_bc Proofs_bc2 Proofs_bc3 Properties_bc3 Model_domain Spec_domain Proofs_domain1 Proofs_domain4
  Model_comm Model_parallel Spec_parallel Proofs_parallel1 Proofs_parallel6 Properties_parallel Model_run Spec_run Proofs_run1 Proofs_run2 Proofs_run3 Proofs_run4 Proofs_run5 Proofs_run6 Spec_run2 Model_run2 Proofs_run7 Proofs_run8 Proofs_run9 Proofs_run10 Proofs_run11 Proofs_run12 Proofs_run13 Proofs_run14 Proofs_run15 Spec_run3 Proofs_run16
  Model_poisson Spec_poisson Spec_poisson2 Spec_poisson3 Model_run4 Spec_run6.
From Verif Require Properties_interp Spec_linsys.
Open Scope Z_scope.

(** *** neumann on all the sides *)
Lemma open_in dim l t : In (l, t) (open_sides dim) <-> In l (sides dim) /\ t = BNeumann.
Proof. unfold open_sides. rewrite in_map_iff. split; [intros (k & E & H); injection E as -> <-; auto | intros (H & ->); exists l; auto]. Qed.
Lemma open_valid dim : bc_valid dim (open_sides dim) [].
Proof.
  split; [|split; [|split; [|split]]].
  - unfold open_sides. rewrite map_map. cbn [fst]. rewrite map_id. unfold sides. destruct (dim =? 3); repeat constructor; cbn; intuition discriminate.
  - intros l t H. apply open_in in H as (A & ->). auto.
  - intros l H. apply in_map_iff. exists (l, BNeumann). split; [reflexivity | apply open_in; auto].
  - unfold open_sides, sides. destruct (dim =? 3); cbn; repeat split; intros _ l H; repeat destruct H as [H|H]; try discriminate H; destruct H.
  - intros l H. apply open_in in H as (_ & H). discriminate H.
Qed.
Lemma open_corners dim cells labels epart : corners_whole dim cells labels (open_sides dim) epart.
Proof. unfold corners_whole. intros ? ? l ?. intros. exfalso. match goal with H : In (_, BDirichlet) (open_sides _) |- _ => apply open_in in H as (_ & X); discriminate X end. Qed.
Lemma open_value dim nodes labels F x : boundary_value dim nodes labels (open_sides dim) [] F x = x.
Proof. unfold boundary_value. destruct (find _ (open_sides dim)) as [(l & t)|] eqn:E; [|reflexivity]. apply find_some in E as (H & _). apply open_in in H as (_ & ->). reflexivity. Qed.

Section Rank30.
Context (dim : Z) (cells : list (list Z)) (nodes : list pt) (labels epart : list Z) (r : Z) (D : domain).
Hypothesis VM : valid_mesh dim cells nodes labels.
Hypothesis PA : part_of dim cells nodes labels epart r D.
Hypothesis CS : consistent dim D.
Notation gc := (gcell D).
Notation WF := (vm_mesh _ _ _ _ VM).
Lemma side_not_periodic l : In l (sides dim) -> ~ side_periodic (dom_bc D) l.
Proof.
  intros A SP. unfold side_periodic in SP. cbn [dom_bc bd_name] in SP. pose proof (wm_dim _ _ _ WF) as Hd.
  destruct (In_nthZ 0 _ _ SP) as (f & Hf & E). assert (If : isface D f) by (unfold isface; rewrite <- (proj1 (faces_count dim cells nodes labels epart r D PA CS)); exact Hf).
  pose proof (Proofs_run4.name_cases dim cells nodes labels epart r D PA f If) as N. rewrite E in N.
  unfold sides in A. destruct (dim =? 3); cbn [In] in A; repeat (destruct A as [<-|A]; [cbn [periodic_label] in N; lia|]); destruct A.
Qed.
(** a Variable without a dictionary *)
Lemma default_open : new_variable (dom_bc D) None None = new_variable (dom_bc D) (Some (open_sides dim)) (Some []).
Proof.
  unfold new_variable. change (bd_dim (dom_bc D)) with (dm_dim D). rewrite (cs_dim _ _ CS). unfold open_sides. rewrite foldM_map. f_equal. apply foldM_ext. intros s l Hl.
  assert (IL : In l (sides dim)) by exact Hl. destruct (domain_bc_ok (dom_bc D) (cs_bc _ _ CS) l) as (b & i & E & HB & _); [cbn [dom_bc bd_dim]; rewrite (cs_dim _ _ CS); exact IL|].
  unfold bc_default, bc_entry. rewrite E. cbn [bind]. destruct b; [exfalso; exact (side_not_periodic l IL (proj1 HB eq_refl))|]. cbn [andb negb]. reflexivity.
Qed.

(** the flux through a face with its own velocity *)
Lemma carried_at bc vs X order Sl Ps A vel c f : (forall c, iscell cells c -> gradient dim (Sl c)) ->
  (forall c, iscell_of D c -> nthZ 0%R (ad_c A) c = X (gc c) /\ nthZ vzero (ad_grad A) c = Sl (gc c) /\ nthZ 0%R (ad_psi A) c = Ps (gc c)) ->
  (forall h, ishalo_of D h -> nthZ 0%R (ad_halo A) h = X (ghalo D h) /\ nthZ vzero (ad_gradh A) h = Sl (ghalo D h) /\ nthZ 0%R (ad_psih A) h = Ps (ghalo D h)) ->
  (forall f c, only_cell dim cells c (fset D f) -> isface D f -> gc (left_of D f) = c -> nthZ 0%R (ad_ghost A) f = boundary_value dim nodes labels bc vs (fset D f) (X c)) ->
  iscell_of D c -> In f (nthZ [] (dm_faceid D) c) ->
  leaves (dom_fv D) (fv_flux dim order (dom_fv D) A vel) c f = carried dim cells nodes labels bc vs order (nthZ vzero vel f) X Sl Ps (gc c) (fset D f).
Proof.
  intros HS AC AH AG Hc Hf. pose proof (proj2 (Proofs_run4.rows_ok dim cells nodes labels epart r D PA CS c Hc) f Hf) as If. pose proof If as If'. unfold isface in If'. destruct (faces_count dim cells nodes labels epart r D PA CS) as (_ & _ & FC). set (U := nthZ vzero vel f).
  rewrite <- (carried_face dim cells nodes labels epart r D VM PA CS bc vs X order U Sl Ps A (zeros_like U (zlen (dm_cellid D)))); [| |exact HS | exact AC | exact AH | exact AG | exact Hc | exact Hf].
  - unfold leaves, fv_flux. assert (EU : nthZ vzero (zeros_like U (zlen (dm_cellid D))) f = nthZ vzero vel f) by (unfold zeros_like; rewrite (nthZ_map _ 0) by (rewrite zlen_range; lia); reflexivity).
    unfold throughput. cbv zeta. rewrite EU. reflexivity.
  - intros g Ig. unfold isface in Ig. unfold zeros_like. rewrite (nthZ_map _ 0) by (rewrite zlen_range; lia). reflexivity.
Qed.

(** the velocities of the cells *)
Notation vel_ok := (vel_ok D).
Lemma facetocell_mean (a : list R) (Q : list Z -> R) old c : zlen old = zlen (dm_center D) -> zlen a = zlen (dm_cellid D) -> 
  exists u, facetocell a old (dm_faceid D) (dm_dim D) = Ok u /\ zlen u = zlen (dm_center D) /\
  (iscell_of D c -> (forall f, In f (nthZ [] (dm_faceid D) c) -> nthZ 0%R a f = Q (fset D f)) -> nthZ 0%R u c = (/ IZR (dim + 1) * rsum (map Q (facets (cell cells (gc c)))))%R).
Proof.
  intros HL LA. destruct (pa_sizes _ _ _ _ _ _ _ PA) as (_ & S2 & _ & SF & SC & _). rewrite (cs_dim _ _ CS). pose proof (wm_dim _ _ _ WF) as Hd.
  destruct (Properties_interp.C28_facetocell dim a old (dm_faceid D) Hd) as (u & E & LU & V); [lia | |].
  { intros i Hi. destruct (Proofs_run4.rows_ok dim cells nodes labels epart r D PA CS i) as (A & B); [unfold iscell_of; lia|]. split; [exact A|]. intros f Hf. specialize (B f Hf). unfold isface in B. destruct (faces_count dim cells nodes labels epart r D PA CS) as (_ & _ & FC). lia. }
  exists u. split; [exact E|]. split; [lia|]. intros Hc HQ. pose proof Hc as Hc'. unfold iscell_of in Hc'. destruct (V c ltac:(lia)) as (V1 & _).
  assert (ES : rsum (map (nthZ 0%R a) (nthZ [] (dm_faceid D) c)) = rsum (map Q (facets (cell cells (gc c))))).
  { rewrite <- (rsum_perm _ _ (Permutation_map Q (fset_row dim cells nodes labels epart r D VM PA CS c Hc))). rewrite map_map. apply rsum_map_ext. exact HQ. }
  rewrite ES in V1. assert (HP : (IZR (dim + 1) <> 0)%R) by (apply not_0_IZR; lia). rewrite <- V1. field. exact HP.
Qed.
Lemma velocity_mean vel (V : Z -> list Z -> pt) old : vel_ok old -> zlen vel = zlen (dm_cellid D) -> (dim = 2 -> forall c, iscell_of D c -> nthZ 0%R (snd old) c = 0%R) ->
  (dim = 2 -> forall c F, iscell cells c -> In F (facets (cell cells c)) -> pz (V c F) = 0%R) ->
  (forall c f, iscell_of D c -> In f (nthZ [] (dm_faceid D) c) -> nthZ vzero vel f = V (gc c) (fset D f)) ->
  exists u, velocity_cells D vel old = Ok u /\ vel_ok u /\ (dim = 2 -> forall c, iscell_of D c -> nthZ 0%R (snd u) c = 0%R) /\
  forall c, iscell_of D c -> nthZ vzero (components (fst (fst u)) (snd (fst u)) (snd u)) c = mean_velocity dim cells V (gc c).
Proof.
  intros (A & B & C) LV Z2 P2 HV. unfold velocity_cells.
  assert (LM : forall g : pt -> R, zlen (map g vel) = zlen (dm_cellid D)) by (intros g; rewrite zlen_map; exact LV).
  assert (NM : forall (g : pt -> R) c f, g vzero = 0%R -> iscell_of D c -> In f (nthZ [] (dm_faceid D) c) -> nthZ 0%R (map g vel) f = g (V (gc c) (fset D f))).
  { intros g c f G0 Hc Hf. pose proof (proj2 (Proofs_run4.rows_ok dim cells nodes labels epart r D PA CS c Hc) f Hf) as If. unfold isface in If. destruct (faces_count dim cells nodes labels epart r D PA CS) as (_ & _ & FC). rewrite (nthZ_map _ vzero) by lia. rewrite (HV c f Hc Hf). reflexivity. }
  assert (FM : forall (g : pt -> R) o, g vzero = 0%R -> zlen o = zlen (dm_center D) -> exists u, facetocell (map g vel) o (dm_faceid D) (dm_dim D) = Ok u /\ zlen u = zlen (dm_center D) /\
     forall c, iscell_of D c -> nthZ 0%R u c = (/ IZR (dim + 1) * rsum (map (fun F => g (V (gc c) F)) (facets (cell cells (gc c)))))%R).
  { intros g o G0 Lo. destruct (facetocell_mean (map g vel) (fun _ => 0%R) o (-1) Lo (LM g)) as (u & E & Lu & _). exists u. split; [exact E|]. split; [exact Lu|]. intros c Hc.
    destruct (facetocell_mean (map g vel) (fun F => g (V (gc c) F)) o c Lo (LM g)) as (u' & E' & _ & Q). rewrite E in E'. injection E' as <-. apply (Q Hc). intros f Hf. exact (NM g c f G0 Hc Hf). }
  destruct (FM px _ eq_refl A) as (u & Eu & Lu & Vu). destruct (FM py _ eq_refl B) as (v & Ev & Lv & Vv). destruct (FM pz _ eq_refl C) as (w & Ew & Lw & Vw). rewrite Eu. cbn [bind]. rewrite Ev. cbn [bind]. rewrite (cs_dim _ _ CS) in *.
  assert (ME : forall c, mean_velocity dim cells V c = P3 (/ IZR (dim + 1) * rsum (map (fun F => px (V c F)) (facets (cell cells c)))) (/ IZR (dim + 1) * rsum (map (fun F => py (V c F)) (facets (cell cells c)))) (/ IZR (dim + 1) * rsum (map (fun F => pz (V c F)) (facets (cell cells c))))).
  { intros c. unfold mean_velocity, vscal. rewrite vsum_px, vsum_py, vsum_pz. reflexivity. }
  assert (CM : forall x y z c, zlen x = zlen (dm_center D) -> iscell_of D c -> nthZ vzero (components x y z) c = P3 (nthZ 0%R x c) (nthZ 0%R y c) (nthZ 0%R z c)).
  { intros x y z c Lx Hc. unfold iscell_of in Hc. destruct (pa_sizes _ _ _ _ _ _ _ PA) as (_ & S2 & _). unfold components. rewrite (nthZ_map _ 0) by (rewrite zlen_range; lia). rewrite nthZ_range by lia. reflexivity. }
  destruct (Z.eqb_spec dim 2) as [E2|N2].
  - eexists. split; [reflexivity|]. cbn [fst snd]. split; [unfold vel_ok; cbn [fst snd]; auto|]. split; [intros _; exact (Z2 E2)|]. intros c Hc. rewrite CM by assumption. rewrite ME, Vu, Vv, (Z2 E2 c Hc) by exact Hc. f_equal.
    rewrite (rsum_map_zero (fun F => pz (V (gc c) F))); [ring|]. intros F HF. apply (P2 E2); [exact (proj1 (gcell_owned dim cells nodes labels epart r D PA c Hc)) | exact HF].
  - rewrite Ew. cbn [bind]. eexists. split; [reflexivity|]. cbn [fst snd]. split; [unfold vel_ok; cbn [fst snd]; auto|]. split; [intros X2; contradiction|]. intros c Hc. rewrite CM by assumption. rewrite ME, Vu, Vv, Vw by exact Hc. reflexivity.
Qed.

(** the time step *)
Lemma speed_with us K c : iscell_of D c -> wave_speed us (dm_normal D) (dm_volume D) (dm_faceid D) K c = full_speed cells nodes (nthZ vzero us c) K (gc c).
Proof.
  intros Hc. unfold wave_speed, full_speed.
  rewrite <- (rsum_perm _ _ (Permutation_map _ (fset_row dim cells nodes labels epart r D VM PA CS c Hc))). rewrite map_map. apply rsum_map_ext. intros f Hf. cbv zeta. set (U := nthZ vzero us c).
  replace (nthZ 0%R (dm_volume D) c) with (measure_of cells nodes (gc c)) by (symmetry; apply (pa_cell _ _ _ _ _ _ _ PA c Hc)).
  destruct (normal_sign dim cells nodes labels epart r D VM PA CS c f Hc Hf) as [-> | ->]; [reflexivity|]. set (o := outward cells nodes (gc c) (fset D f)).
  replace (vdot U (vscal (-1) o)) with (- vdot U o)%R by (unfold vdot, vscal; cbn [px py pz]; ring). replace (vdot (vscal (-1) o) (vscal (-1) o)) with (vdot o o) by (unfold vdot, vscal; cbn [px py pz]; ring). rewrite Rabs_Ropp. reflexivity.
Qed.
Lemma timestep_with us K cfl : zlen us = zlen (dm_center D) -> (0 < cfl)%R -> (0 <= px K + py K + pz K)%R ->
  exists dt, time_step (dm_dim D) us (dm_normal D) cfl (dm_mesure D) (dm_volume D) (dm_faceid D) K = Ok (Some dt) /\ (0 < dt <= 1000000)%R /\
  (forall c, iscell_of D c -> dt * full_speed cells nodes (nthZ vzero us c) K (gc c) <= cfl * measure_of cells nodes (gc c))%R /\
  (dt = 1000000%R \/ exists c, iscell_of D c /\ (0 < full_speed cells nodes (nthZ vzero us c) K (gc c))%R /\ (dt * full_speed cells nodes (nthZ vzero us c) K (gc c) = cfl * measure_of cells nodes (gc c))%R).
Proof.
  intros LU HC HK. destruct (pa_sizes _ _ _ _ _ _ _ PA) as (_ & S2 & S3 & SF & _). rewrite (cs_dim _ _ CS).
  destruct (C33_time_step dim us (dm_normal D) cfl (dm_mesure D) (dm_volume D) (dm_faceid D) K) as (dt & E & B & F & M); [apply (cs_timestep _ _ CS); exact LU | exact HC | exact HK|].
  assert (VO : forall c, iscell_of D c -> nthZ 0%R (dm_volume D) c = measure_of cells nodes (gc c)) by (intros c Hc; apply (pa_cell _ _ _ _ _ _ _ PA c Hc)).
  exists dt. split; [exact E|]. split; [exact B|]. split.
  - intros c Hc. destruct (F c ltac:(rewrite SF; exact Hc)) as ((_ & X) & _). rewrite (speed_with us K c Hc), (VO c Hc) in X. exact X.
  - destruct M as [M|(c & Hc & N & M)]; [left; exact M|right]. assert (Hc' : iscell_of D c) by (unfold iscell_of; rewrite <- SF; exact Hc). destruct (F c Hc) as ((W0 & _) & _). rewrite (speed_with us K c Hc') in *. rewrite (VO c Hc') in M.
    exists c. split; [exact Hc'|]. split; [lra|]. rewrite M. field. lra.
Qed.
End Rank30.
