(** * Properties_poisson: the Poisson problem on any number of ranks (C74, C75).
    Vocabulary: [Spec_poisson] (the discrete problem on the mesh), [Spec_poisson2] (sources, linear solvers), [Spec_run3] (variables and their histories). *)
From Coq Require Import Reals Lra Permutation Sorted.
From Verif Require Import Py PyLemmas Model_part Spec_part Model_label Model_conn Spec_conn Model_geom Spec_geom Proofs_geom1 Model_interp Spec_interp Spec_lsq Model_fvm Spec_fvm Proofs_fvm1 Proofs_fvm2 Model_bc Spec_bc Spec_bc3
  Model_domain Spec_domain Model_parallel Spec_parallel Properties_geom Properties_parallel Model_comm Model_run Spec_run Proofs_run1 Proofs_run3 Proofs_run5 Proofs_run6 Properties_run Spec_run2 Model_run2 Proofs_run7 Proofs_run11 Proofs_run13 Proofs_run14 Proofs_run15 Spec_run3 Proofs_run16 Properties_run2
  Model_poisson Spec_poisson Spec_poisson2 Proofs_poisson6 Proofs_poisson7 Proofs_poisson8.
From Verif Require Import Model_linsys.
From Verif Require Spec_linsys Proofs_linsys5.
Open Scope Z_scope.

(** C74.  After any history of the variable, constructing the linear system, assembling it and preparing the right-hand side succeed on all the ranks.  All the
    positions in the matrix are cells of the mesh, and for every field X the matrix of all the ranks applied to X, minus the right-hand side, plus the sources is
    the discrete Laplacian of X: the system A X = b is the discrete Poisson problem div grad X = source. *)
Theorem C74_operator : forall f32 dim SIZE cells nodes labels npart0 epart bc vs,
  regular dim SIZE cells nodes labels npart0 epart bc vs ->
  exists st, setup f32 dim SIZE cells nodes labels npart0 epart = Ok st /\
    forall l sol user0 f0 user f, history bc vs SIZE st l -> usable SIZE sol -> source sol cells SIZE st user0 f0 -> source sol cells SIZE st user f ->
    exists ss es b, new_system SIZE st l (Some sol) user0 = Ok ss /\ assemble SIZE st l = Ok es /\ handed_rhs SIZE st sol ss user = Ok b /\ zlen b = zlen cells /\
      (forall e, In e (concat es) -> iscell cells (fst (fst e)) /\ iscell cells (snd (fst e))) /\
      forall X c, iscell cells c -> exists a y, Spec_linsys.row_sum (concat es) c X = Some a /\ nthZ None b c = Some y /\
        laplacian dim cells nodes labels bc vs X c (a - y + total sol f0 f c)%R.
Proof.
  intros f32 dim SIZE cells nodes labels npart0 epart bc vs RG. regular_setup f32 RG st E RP CS HX. exists st. split; [exact E|]. intros l sol user0 f0 user f HH HU H0 H1.
  destruct (history_holds dim SIZE cells nodes labels npart0 epart st VM PL VS RP SC CS HX bc vs BV CW SP l HH) as (X0 & HO).
  exact (operator_ok dim SIZE cells nodes labels npart0 epart st VM PL VS RP SC CS bc vs BV SP X0 l sol user0 f0 user f HO HU H0 H1).
Qed.
(** The discrete Laplacian of a field is one number per cell. *)
Theorem C74_laplacian_unique : forall dim cells nodes labels bc vs X X' c y y', valid_mesh dim cells nodes labels -> (forall d, iscell cells d -> X d = X' d) -> iscell cells c ->
  laplacian dim cells nodes labels bc vs X c y -> laplacian dim cells nodes labels bc vs X' c y' -> y = y'.
Proof. intros dim cells nodes labels bc vs X X' c y y' VM HX Hc H H'. exact (laplacian_unique dim cells nodes labels bc vs VM X X' c y y' HX Hc H H'). Qed.
Lemma row_zero es c a : Spec_linsys.row_sum es c (fun _ => 0%R) = Some a -> a = 0%R.
Proof.
  revert a. induction es as [|((i, j), v) es IH]; intros a; [intros E; injection E as <-; reflexivity|]. rewrite Proofs_linsys5.row_sum_cons. destruct (i =? c); [|apply IH]. destruct v as [v|]; [|discriminate]. destruct (Spec_linsys.row_sum es c (fun _ => 0%R)) as [b|]; [|discriminate]. cbn. intros E. injection E as <-. rewrite (IH b eq_refl). ring.
Qed.
(** The system does not depend on the number of ranks, the distribution of the cells, the solver or the history of the variable: same matrix, same right-hand side. *)
Theorem C74_same_system : forall f32 dim cells nodes labels bc vs SIZE npart0 epart SIZE' npart0' epart',
  regular dim SIZE cells nodes labels npart0 epart bc vs -> regular dim SIZE' cells nodes labels npart0' epart' bc vs ->
  exists st st', setup f32 dim SIZE cells nodes labels npart0 epart = Ok st /\ setup f32 dim SIZE' cells nodes labels npart0' epart' = Ok st' /\
    forall l l' sol sol' user0 user0' f0 f0' user user' f f', history bc vs SIZE st l -> history bc vs SIZE' st' l' -> usable SIZE sol -> usable SIZE' sol' ->
    source sol cells SIZE st user0 f0 -> source sol cells SIZE st user f -> source sol' cells SIZE' st' user0' f0' -> source sol' cells SIZE' st' user' f' ->
    (forall c, iscell cells c -> total sol f0 f c = total sol' f0' f' c) ->
    exists ss es b ss' es' b', new_system SIZE st l (Some sol) user0 = Ok ss /\ assemble SIZE st l = Ok es /\ handed_rhs SIZE st sol ss user = Ok b /\
      new_system SIZE' st' l' (Some sol') user0' = Ok ss' /\ assemble SIZE' st' l' = Ok es' /\ handed_rhs SIZE' st' sol' ss' user' = Ok b' /\
      b = b' /\ forall X c, iscell cells c -> Spec_linsys.row_sum (concat es) c X = Spec_linsys.row_sum (concat es') c X.
Proof.
  intros f32 dim cells nodes labels bc vs SIZE npart0 epart SIZE' npart0' epart' RG RG'. pose proof (rg_mesh _ _ _ _ _ _ _ _ _ RG) as VM.
  destruct (C74_operator f32 _ _ _ _ _ _ _ _ _ RG) as (st & E & H). destruct (C74_operator f32 _ _ _ _ _ _ _ _ _ RG') as (st' & E' & H'). exists st, st'. split; [exact E|]. split; [exact E'|].
  intros l l' sol sol' user0 user0' f0 f0' user user' f f' HH HH' HU HU' S0 S1 S0' S1' ET.
  destruct (H l sol user0 f0 user f HH HU S0 S1) as (ss & es & b & E1 & E2 & E3 & LB & _ & HL). destruct (H' l' sol' user0' f0' user' f' HH' HU' S0' S1') as (ss' & es' & b' & E1' & E2' & E3' & LB' & _ & HL').
  exists ss, es, b, ss', es', b'. split; [exact E1|]. split; [exact E2|]. split; [exact E3|]. split; [exact E1'|]. split; [exact E2'|]. split; [exact E3'|].
  assert (EB : forall c, iscell cells c -> nthZ None b c = nthZ None b' c).
  { intros c Hc. destruct (HL (fun _ => 0%R) c Hc) as (a & y & Ea & Ey & L1). destruct (HL' (fun _ => 0%R) c Hc) as (a' & y' & Ea' & Ey' & L1'). apply row_zero in Ea, Ea'. pose proof (laplacian_unique dim cells nodes labels bc vs VM _ _ c _ _ (fun _ _ => eq_refl) Hc L1 L1') as Q. rewrite Ey, Ey'. f_equal. specialize (ET c Hc). lra. }
  split; [apply (nthZ_ext None); [lia|]; intros c Hc; apply EB; rewrite LB in Hc; exact Hc|].
  intros X c Hc. destruct (HL X c Hc) as (a & y & Ea & Ey & L1). destruct (HL' X c Hc) as (a' & y' & Ea' & Ey' & L1'). pose proof (laplacian_unique dim cells nodes labels bc vs VM _ _ c _ _ (fun _ _ => eq_refl) Hc L1 L1') as Q. rewrite (EB c Hc), Ey' in Ey. injection Ey as <-. rewrite Ea, Ea'. f_equal. specialize (ET c Hc). lra.
Qed.
(** Conservation: for a solution, the sources balance what leaves through the dirichlet facets of the boundary. *)
Theorem C74_conservation : forall dim SIZE cells nodes labels npart0 epart bc vs f X, valid_mesh dim cells nodes labels -> valid_split dim SIZE cells nodes npart0 epart ->
  poisson dim cells nodes labels bc vs f X ->
  rsum (map (fun c => measure_of cells nodes c * f c)%R (range (zlen cells))) = rsum (map (fun p => dirichlet_flux dim cells nodes labels bc vs X (fst p) (snd p)) (boundary_facets cells)).
Proof.
  intros dim SIZE cells nodes labels npart0 epart bc vs f X VM VS. apply (poisson_balance dim cells nodes labels bc vs VM). intros c Hc. apply (cells_closed dim SIZE cells nodes labels npart0 epart vzero VM VS c Hc).
Qed.
(** Constant fields have Laplacian 0 when the prescribed values are this constant. *)
Theorem C74_constant : forall dim cells nodes labels bc vs k X c, valid_mesh dim cells nodes labels -> (forall l p, In (l, BDirichlet) bc -> prescribed_at vs l p = k) ->
  (forall d, iscell cells d -> X d = k) -> iscell cells c -> forall y, laplacian dim cells nodes labels bc vs X c y -> y = 0%R.
Proof.
  intros dim cells nodes labels bc vs k X c VM HK HX Hc. assert (FX : forall t p y, fixed bc vs t p = Some y -> y = k). { intros t p y. unfold fixed. destruct (find _ bc) as [(s, ty)|] eqn:EF; [|discriminate]. apply find_some in EF as (EF & _). destruct ty; try discriminate. intros E. injection E as <-. apply HK. exact EF. }
  apply (laplacian_constant dim cells nodes labels bc vs VM k X c); auto; intros ? ? E; exact (FX _ _ _ E).
Qed.
(** Affine fields have Laplacian 0 in the cells without boundary facets whose nodes are away from the boundary or have the exact value prescribed. *)
Theorem C74_affine : forall dim SIZE cells nodes labels npart0 epart bc vs a0 k X c, valid_mesh dim cells nodes labels -> valid_split dim SIZE cells nodes npart0 epart -> gradient dim k ->
  (forall d, iscell cells d -> X d = affine a0 k (centre dim cells nodes d)) -> iscell cells c -> (forall F, In F (facets (cell cells c)) -> beside cells c F <> None) ->
  (forall g, In g (cell cells c) -> match node_fixed nodes labels bc vs g with Some y => y = affine a0 k (at_node nodes g) | None => boundary_at cells g = [] end) ->
  forall y, laplacian dim cells nodes labels bc vs X c y -> y = 0%R.
Proof.
  intros dim SIZE cells nodes labels npart0 epart bc vs a0 k X c VM VS GK HX Hc HI HG. apply (laplacian_affine dim cells nodes labels bc vs VM a0 k X c GK HX); auto. apply (cells_closed dim SIZE cells nodes labels npart0 epart k VM VS c Hc).
Qed.
(** Without dirichlet sides: a solution needs sources with sum 0, and then it is not the only one. *)
Theorem C74_neumann : forall dim SIZE cells nodes labels npart0 epart bc vs f X, valid_mesh dim cells nodes labels -> valid_split dim SIZE cells nodes npart0 epart ->
  (forall l, ~ In (l, BDirichlet) bc) -> poisson dim cells nodes labels bc vs f X ->
  rsum (map (fun c => measure_of cells nodes c * f c)%R (range (zlen cells))) = 0%R /\ forall k, poisson dim cells nodes labels bc vs f (fun c => X c + k)%R.
Proof.
  intros dim SIZE cells nodes labels npart0 epart bc vs f X VM VS ND HP. assert (FX : forall t p, fixed bc vs t p = None). { intros t p. unfold fixed. destruct (find _ bc) as [(s, ty)|] eqn:EF; [|reflexivity]. apply find_some in EF as (EF & _). destruct ty; try reflexivity. destruct (ND _ EF). }
  split.
  - rewrite (C74_conservation dim SIZE cells nodes labels npart0 epart bc vs f X VM VS HP). apply rsum_map_zero. intros p _. unfold dirichlet_flux, facet_fixed. rewrite FX. reflexivity.
  - intros k c Hc. apply (laplacian_shift dim cells nodes labels bc vs k X c (f c)); [intros g; apply FX | intros F; apply FX | apply HP; exact Hc].
Qed.

(** C75.  With mumps and petsc, on any number of ranks: when the numerical solver returns a vector, solve succeeds, every rank gets in var.cell the values of its cells
    in this vector, and the field is a solution of the discrete Poisson problem exactly if the vector solves the linear system.  The variable can be used further
    (its history goes on). *)
Theorem C75_solution : forall f32 dim SIZE cells nodes labels npart0 epart bc vs,
  regular dim SIZE cells nodes labels npart0 epart bc vs ->
  exists st, setup f32 dim SIZE cells nodes labels npart0 epart = Ok st /\
    forall backend l sol user0 f0 user f, history bc vs SIZE st l -> sol = SMumps \/ sol = SPetsc -> source sol cells SIZE st user0 f0 -> source sol cells SIZE st user f ->
    exists ss es b, new_system SIZE st l (Some sol) user0 = Ok ss /\ assemble SIZE st l = Ok es /\ handed_rhs SIZE st sol ss user = Ok b /\
      let x := backend (concat es) b in
      zlen x = zlen cells -> exists l', solve backend SIZE st sol ss es l user = Ok l' /\ history bc vs SIZE st l' /\ holding SIZE st (nthZ 0%R x) l' /\
        (solves (concat es) b (zlen cells) x <-> poisson dim cells nodes labels bc vs (total sol f0 f) (nthZ 0%R x)).
Proof.
  intros f32 dim SIZE cells nodes labels npart0 epart bc vs RG. destruct (C74_operator f32 _ _ _ _ _ _ _ _ _ RG) as (st & E & HA). pose proof RG as [VM PL SC SP VS BV CW]. destruct (C68_parallel_setup f32 _ _ _ _ _ _ _ VM VS) as (st2 & ES & RP & CS & HX). rewrite E in ES. injection ES as <-. exists st. split; [exact E|].
  intros backend l sol user0 f0 user f HH HS S0 S1. assert (HU : usable SIZE sol) by (destruct HS as [-> | ->]; exact I). destruct (HA l sol user0 f0 user f HH HU S0 S1) as (ss & es & b & E1 & E2 & E3 & LB & _ & HL). exists ss, es, b. split; [exact E1|]. split; [exact E2|]. split; [exact E3|]. intros x Lx.
  destruct (history_holds dim SIZE cells nodes labels npart0 epart st VM PL VS RP SC CS HX bc vs BV CW SP l HH) as (X0 & HO).
  destruct (deliver_ok dim SIZE cells nodes labels npart0 epart st VS RP CS (setup_tc f32 _ _ _ _ _ _ _ _ VM VS E) bc vs X0 l x HO Lx) as (l' & EL & HO' & HI). exists l'. split.
  { unfold solve. destruct HS as [-> | ->]; rewrite E3; cbn [bind]; exact EL. }
  split; [exact (HI HH)|]. split; [exact (holds_holding dim SIZE cells nodes npart0 epart st VS bc vs _ _ HO')|].
  split.
  - intros (_ & HS') c Hc. destruct (HL (nthZ 0%R x) c Hc) as (a & y & Ea & Ey & LP). destruct (HS' c Hc) as (a' & Ea' & Ey'). rewrite Ea in Ea'. injection Ea' as <-. rewrite Ey in Ey'. injection Ey' as ->. replace (total sol f0 f c) with (a - a + total sol f0 f c)%R by ring. exact LP.
  - intros HP. split; [exact Lx|]. intros c Hc. destruct (HL (nthZ 0%R x) c Hc) as (a & y & Ea & Ey & LP). exists a. split; [exact Ea|]. rewrite Ey. f_equal. pose proof (laplacian_unique dim cells nodes labels bc vs VM _ _ c _ _ (fun _ _ => eq_refl) Hc LP (HP c Hc)). lra.
Qed.
(** spsolve and umfpack, on one rank: the same, but var.cell is afterwards another array than the one the boundary conditions read (C35_reassigned_cell_refuted). *)
Theorem C75_serial : forall f32 dim cells nodes labels npart0 epart bc vs,
  regular dim 1 cells nodes labels npart0 epart bc vs ->
  exists st, setup f32 dim 1 cells nodes labels npart0 epart = Ok st /\
    forall backend l sol user0 f0 user f, history bc vs 1 st l -> sol = SSpsolve \/ sol = SUmfpack -> source sol cells 1 st user0 f0 -> source sol cells 1 st user f ->
    exists ss es b l', new_system 1 st l (Some sol) user0 = Ok ss /\ assemble 1 st l = Ok es /\ handed_rhs 1 st sol ss user = Ok b /\
      let x := backend (concat es) b in
      solve backend 1 st sol ss es l user = Ok l' /\ mapM cell_of l' = Ok [x] /\
      (solves (concat es) b (zlen cells) x <-> zlen x = zlen cells /\ poisson dim cells nodes labels bc vs (total sol f0 f) (nthZ 0%R x)).
Proof.
  intros f32 dim cells nodes labels npart0 epart bc vs RG. destruct (C74_operator f32 _ _ _ _ _ _ _ _ _ RG) as (st & E & HA). pose proof RG as [VM PL SC SP VS BV CW]. destruct (C68_parallel_setup f32 _ _ _ _ _ _ _ VM VS) as (st2 & ES & RP & CS & HX). rewrite E in ES. injection ES as <-. exists st. split; [exact E|].
  intros backend l sol user0 f0 user f HH HS S0 S1. assert (HU : usable 1 sol) by (destruct HS as [-> | ->]; reflexivity). destruct (HA l sol user0 f0 user f HH HU S0 S1) as (ss & es & b & E1 & E2 & E3 & LB & _ & HL). 
  destruct (history_holds dim 1 cells nodes labels npart0 epart st VM PL VS RP SC CS HX bc vs BV CW SP l HH) as (X0 & ws & Ll & _ & HO). destruct (HO 0 ltac:(lia)) as (v & Ev & _).
  set (x := backend (concat es) b). exists ss, es, b, [rebind v x]. split; [exact E1|]. split; [exact E2|]. split; [exact E3|]. cbv zeta. fold x. split.
  { unfold solve. change (range 1) with [0]. destruct HS as [-> | ->]; rewrite E3; cbn [bind mapM]; rewrite Ev; reflexivity. }
  split.
  { cbn [mapM]. unfold cell_of at 1. cbn [rebind va_heap va_cell]. rewrite (get_nthZ []) by (rewrite zlen_app; pose proof (zlen_nonneg (va_heap v)); change (zlen [x]) with 1; lia). rewrite nthZ_app_last by reflexivity. reflexivity. }
  split.
  - intros (Lx & HS'). split; [exact Lx|]. intros c Hc. destruct (HL (nthZ 0%R x) c Hc) as (a & y & Ea & Ey & LP). destruct (HS' c Hc) as (a' & Ea' & Ey'). rewrite Ea in Ea'. injection Ea' as <-. rewrite Ey in Ey'. injection Ey' as ->. replace (total sol f0 f c) with (a - a + total sol f0 f c)%R by ring. exact LP.
  - intros (Lx & HP). split; [exact Lx|]. intros c Hc. destruct (HL (nthZ 0%R x) c Hc) as (a & y & Ea & Ey & LP). exists a. split; [exact Ea|]. rewrite Ey. f_equal. pose proof (laplacian_unique dim cells nodes labels bc vs VM _ _ c _ _ (fun _ _ => eq_refl) Hc LP (HP c Hc)). lra.
Qed.
(** Two runs of one problem, on different numbers of ranks, with different solvers: if the problem has only one solution, both give the same field. *)
Theorem C75_same_result : forall f32 dim cells nodes labels bc vs SIZE npart0 epart SIZE' npart0' epart',
  regular dim SIZE cells nodes labels npart0 epart bc vs -> regular dim SIZE' cells nodes labels npart0' epart' bc vs ->
  exists st st', setup f32 dim SIZE cells nodes labels npart0 epart = Ok st /\ setup f32 dim SIZE' cells nodes labels npart0' epart' = Ok st' /\
    forall backend backend' l l' sol sol' user0 user0' f0 f0' user user' f f' X, history bc vs SIZE st l -> history bc vs SIZE' st' l' -> sol = SMumps \/ sol = SPetsc -> sol' = SMumps \/ sol' = SPetsc ->
    source sol cells SIZE st user0 f0 -> source sol cells SIZE st user f -> source sol' cells SIZE' st' user0' f0' -> source sol' cells SIZE' st' user' f' ->
    (forall c, iscell cells c -> total sol f0 f c = total sol' f0' f' c) ->
    (forall Y, poisson dim cells nodes labels bc vs (total sol f0 f) Y -> forall c, iscell cells c -> Y c = X c) ->
    exists ss es b ss' es' b', new_system SIZE st l (Some sol) user0 = Ok ss /\ assemble SIZE st l = Ok es /\ handed_rhs SIZE st sol ss user = Ok b /\
      new_system SIZE' st' l' (Some sol') user0' = Ok ss' /\ assemble SIZE' st' l' = Ok es' /\ handed_rhs SIZE' st' sol' ss' user' = Ok b' /\
      (solves (concat es) b (zlen cells) (backend (concat es) b) -> solves (concat es') b' (zlen cells) (backend' (concat es') b') ->
       exists l1 l1', solve backend SIZE st sol ss es l user = Ok l1 /\ solve backend' SIZE' st' sol' ss' es' l' user' = Ok l1' /\ holding SIZE st X l1 /\ holding SIZE' st' X l1').
Proof.
  intros f32 dim cells nodes labels bc vs SIZE npart0 epart SIZE' npart0' epart' RG RG'.
  assert (OWN : forall SIZE npart0 epart st, regular dim SIZE cells nodes labels npart0 epart bc vs -> setup f32 dim SIZE cells nodes labels npart0 epart = Ok st -> forall X Y l, (forall c, iscell cells c -> X c = Y c) -> holding SIZE st X l -> holding SIZE st Y l).
  { intros SZ np ep s RGs Es X Y l EQ (ws & E1 & L1 & V1). pose proof RGs as [VM PL SC SP VS BV CW]. destruct (C68_parallel_setup f32 _ _ _ _ _ _ _ VM VS) as (s2 & ES & RP & CS & HX). rewrite Es in ES. injection ES as <-. exists ws. split; [exact E1|]. split; [exact L1|]. intros r Hr. destruct (V1 r Hr) as (A & B). split; [exact A|]. intros c Hc. rewrite (B c Hc). apply EQ. apply (gcell_owned dim cells nodes labels ep r _ (rp_part _ _ _ _ _ _ _ RP r Hr) c Hc). }
  destruct (C75_solution f32 _ _ _ _ _ _ _ _ _ RG) as (st & E & H). destruct (C75_solution f32 _ _ _ _ _ _ _ _ _ RG') as (st' & E' & H'). exists st, st'. split; [exact E|]. split; [exact E'|].
  intros backend backend' l l' sol sol' user0 user0' f0 f0' user user' f f' X HH HH' HS HS' S0 S1 S0' S1' ET UN.
  destruct (H backend l sol user0 f0 user f HH HS S0 S1) as (ss & es & b & E1 & E2 & E3 & HR). destruct (H' backend' l' sol' user0' f0' user' f' HH' HS' S0' S1') as (ss' & es' & b' & E1' & E2' & E3' & HR').
  exists ss, es, b, ss', es', b'. split; [exact E1|]. split; [exact E2|]. split; [exact E3|]. split; [exact E1'|]. split; [exact E2'|]. split; [exact E3'|]. intros SV SV'.
  destruct (HR (proj1 SV)) as (l1 & EL & _ & HO & IFF). destruct (HR' (proj1 SV')) as (l1' & EL' & _ & HO' & IFF'). exists l1, l1'. split; [exact EL|]. split; [exact EL'|]. split.
  - apply (OWN SIZE npart0 epart st RG E _ X l1) with (2 := HO). apply UN. apply IFF. exact SV.
  - apply (OWN SIZE' npart0' epart' st' RG' E' _ X l1') with (2 := HO'). apply UN. intros c Hc. rewrite (ET c Hc). apply IFF'; assumption.
Qed.

(** ** The unit square of two triangles, value 1 at the bottom *)
Notation sql := [4; 4; 3; 3] (only parsing).
Lemma sq_laplacian X c y : laplacian 2 sq sq_v sql sq_bc sq_bcv X c y -> (c = 0 -> y = (6 * (X 1%Z - X 0%Z) + 6 * (1 - X 0%Z))%R) /\ (c = 1 -> y = (6 * (X 0%Z - X 1%Z))%R).
Proof.
  intros (N & Q & _ & HQ & ->). destruct C69_square_outward as (O1 & O2 & O3 & O4 & O5 & O6). destruct sq_centres as (C0 & C1).
  assert (M0 : measure_of sq sq_v 0 = (1 / 2)%R). { unfold measure_of, cell_measure. change (cell sq 0) with [0; 1; 2]. cbn [map]. sq_pts. unfold turn. cbn [px py pz]. unfold Rabs. destruct (Rcase_abs _); lra. }
  assert (M1 : measure_of sq sq_v 1 = (1 / 2)%R). { unfold measure_of, cell_measure. change (cell sq 1) with [0; 3; 2]. cbn [map]. sq_pts. unfold turn. cbn [px py pz]. unfold Rabs. destruct (Rcase_abs _); lra. }
  split; intros ->.
  - change (facets (cell sq 0)) with [[1; 2]; [0; 2]; [0; 1]] in *. pose proof (HQ [1; 2] ltac:(cbn; auto)) as Q1. pose proof (HQ [0; 2] ltac:(cbn; auto)) as Q2. pose proof (HQ [0; 1] ltac:(cbn; auto)) as Q3. rewrite M0. cbn [map]. unfold rsum. cbn [fold_right].
    unfold gradient_flux in *. change (beside sq 0 [1; 2]) with (@None Z) in Q1. change (beside sq 0 [0; 2]) with (Some 1) in Q2. change (beside sq 0 [0; 1]) with (@None Z) in Q3. 
    change (facet_fixed 2 sq_v sql sq_bc sq_bcv [1; 2]) with (@None R) in Q1. change (facet_fixed 2 sq_v sql sq_bc sq_bcv [0; 1]) with (Some 1%R) in Q3. cbn beta iota zeta in Q1, Q2, Q3. destruct Q2 as (s & (_ & _ & S1) & Q2). rewrite O2 in Q2. rewrite O3 in Q3. rewrite C0, C1 in S1. rewrite C0 in Q3.
    assert (FC : facet_centre sq_v [0; 1] = P3 (1/2) 0 0). { unfold facet_centre. cbn [map]. sq_pts. unfold barycentre, vsum, vscal, vadd. cbn [fold_right length px py pz]. f_equal; cbn; field. } rewrite FC in Q3.
    unfold vdot, vsub in *. cbn [px py pz] in *. replace ((1 - X 0%Z) * (0 * 0 + -1 * -1 + 0 * 0) / (0 * (1 / 2 - 2 / 3) + -1 * (0 - 1 / 3) + 0 * (0 - 0)))%R with (3 * (1 - X 0%Z))%R in Q3 by field. lra.
  - change (facets (cell sq 1)) with [[2; 3]; [0; 2]; [0; 3]] in *. pose proof (HQ [2; 3] ltac:(cbn; auto)) as Q1. pose proof (HQ [0; 2] ltac:(cbn; auto)) as Q2. pose proof (HQ [0; 3] ltac:(cbn; auto)) as Q3. rewrite M1. cbn [map]. unfold rsum. cbn [fold_right].
    unfold gradient_flux in *. change (beside sq 1 [2; 3]) with (@None Z) in Q1. change (beside sq 1 [0; 2]) with (Some 0) in Q2. change (beside sq 1 [0; 3]) with (@None Z) in Q3. 
    change (facet_fixed 2 sq_v sql sq_bc sq_bcv [2; 3]) with (@None R) in Q1. change (facet_fixed 2 sq_v sql sq_bc sq_bcv [0; 3]) with (@None R) in Q3. cbn beta iota zeta in Q1, Q2, Q3. destruct Q2 as (s & (_ & _ & S1) & Q2). rewrite O5 in Q2. rewrite C0, C1 in S1.
    unfold vdot, vsub in *. cbn [px py pz] in *. lra.
Qed.
(** The discrete problem there is the system 6 (X1 - X0) + 6 (1 - X0) = f0, 6 (X0 - X1) = f1. *)
Theorem C74_square : forall f X, poisson 2 sq sq_v sql sq_bc sq_bcv f X <-> f 0 = (6 * (X 1%Z - X 0%Z) + 6 * (1 - X 0%Z))%R /\ f 1 = (6 * (X 0%Z - X 1%Z))%R.
Proof.
  intros f X. assert (I0 : iscell sq 0) by (unfold iscell; change (zlen sq) with 2; lia). assert (I1 : iscell sq 1) by (unfold iscell; change (zlen sq) with 2; lia). split.
  - intros HP. split; [exact (proj1 (sq_laplacian X 0 _ (HP 0 I0)) eq_refl) | exact (proj2 (sq_laplacian X 1 _ (HP 1 I1)) eq_refl)].
  - intros (E0 & E1). destruct (C74_operator (fun x => x) _ _ _ _ _ _ _ _ _ (proj1 C70_square)) as (st & E & H). destruct (C70_any_field (fun x => x) _ _ _ _ _ _ _ _ _ X (proj1 C70_square)) as (st2 & ES & l & HH & _). rewrite E in ES. injection ES as <-.
    assert (S0 : source SMumps sq 1 st [None] (fun _ => 0%R)). { intros r Hr. exists None. assert (r = 0) by lia. subst r. split; [reflexivity|]. cbn. intros; reflexivity. }
    destruct (H l SMumps [None] (fun _ => 0%R) [None] (fun _ => 0%R) HH Logic.I S0 S0) as (ss & es & b & _ & _ & _ & _ & _ & HL).
    intros c Hc. destruct (HL X c Hc) as (a & y & _ & _ & LP). unfold iscell in Hc. change (zlen sq) with 2 in Hc. destruct (sq_laplacian X c _ LP) as (A0 & A1). assert (C : c = 0 \/ c = 1) by lia. destruct C as [-> | ->].
    + rewrite E0, <- (A0 eq_refl). exact LP.
    + rewrite E1, <- (A1 eq_refl). exact LP.
Qed.
(** Solved with mumps on one rank and on two ranks, whatever the variable held before: value 1 in both cells. *)
Theorem C75_square : forall f32 backend X X', exists st st' l l', setup f32 2 1 sq sq_v sql [0; 0; 0; 0] [0; 0] = Ok st /\ setup f32 2 2 sq sq_v sql [0; 0; 1; 1] [0; 1] = Ok st' /\
  holding 1 st X l /\ holding 2 st' X' l' /\ exists ss es b ss' es' b', new_system 1 st l (Some SMumps) [None] = Ok ss /\ assemble 1 st l = Ok es /\ handed_rhs 1 st SMumps ss [None] = Ok b /\
    new_system 2 st' l' (Some SMumps) [None; None] = Ok ss' /\ assemble 2 st' l' = Ok es' /\ handed_rhs 2 st' SMumps ss' [None; None] = Ok b' /\
    (solves (concat es) b 2 (backend (concat es) b) -> solves (concat es') b' 2 (backend (concat es') b') ->
     exists l1 l1', solve backend 1 st SMumps ss es l [None] = Ok l1 /\ solve backend 2 st' SMumps ss' es' l' [None; None] = Ok l1' /\ holding 1 st (fun _ => 1%R) l1 /\ holding 2 st' (fun _ => 1%R) l1').
Proof.
  intros f32 backend X X'. destruct (C75_same_result f32 _ _ _ _ _ _ _ _ _ _ _ _ (proj1 C70_square) (proj2 C70_square)) as (st & st' & E & E' & H).
  destruct (C70_any_field f32 _ _ _ _ _ _ _ _ _ X (proj1 C70_square)) as (st2 & ES & l & HH & HO). rewrite E in ES. injection ES as <-.
  destruct (C70_any_field f32 _ _ _ _ _ _ _ _ _ X' (proj2 C70_square)) as (st2 & ES & l' & HH' & HO'). rewrite E' in ES. injection ES as <-.
  exists st, st', l, l'. split; [exact E|]. split; [exact E'|]. split; [exact HO|]. split; [exact HO'|].
  apply (H backend backend l l' SMumps SMumps [None] [None; None] (fun _ => 0%R) (fun _ => 0%R) [None] [None; None] (fun _ => 0%R) (fun _ => 0%R) (fun _ => 1%R) HH HH'); auto.
  - intros r Hr. exists None. assert (r = 0) by lia. subst r. split; [reflexivity|]. cbn. intros; reflexivity.
  - intros r Hr. exists None. assert (r = 0) by lia. subst r. split; [reflexivity|]. cbn. intros; reflexivity.
  - intros r Hr. exists None. split; [assert (C : r = 0 \/ r = 1) by lia; destruct C as [-> | ->]; reflexivity|]. cbn. intros; reflexivity.
  - intros r Hr. exists None. split; [assert (C : r = 0 \/ r = 1) by lia; destruct C as [-> | ->]; reflexivity|]. cbn. intros; reflexivity.
  - intros Y HY c Hc. apply C74_square in HY as (A0 & A1). unfold total in A0, A1. unfold iscell in Hc. change (zlen sq) with 2 in Hc. assert (C : c = 0 \/ c = 1) by lia. destruct C as [-> | ->]; lra.
Qed.
