(** * Properties_var: data shared through the domain (C86), arithmetic of variables (C87), the norm of an error (C88). *)
From Coq Require Import Reals Lra Permutation Sorted.
From Verif Require Import Py PyLemmas Model_part Spec_part Model_label Model_conn Spec_conn Proofs_conn1 Model_geom Spec_geom Proofs_geom1 Model_interp Spec_interp Spec_lsq Model_fvm Spec_fvm Proofs_fvm1 Proofs_fvm2 Model_bc Spec_bc Spec_bc3
  Model_domain Spec_domain Model_parallel Spec_parallel Properties_geom Properties_parallel Model_comm Model_run Spec_run Proofs_run1 Proofs_run3 Proofs_run5 Proofs_run6 Properties_run Spec_run2 Model_run2 Proofs_run7 Proofs_run11 Proofs_run13 Proofs_run14 Proofs_run15 Spec_run3 Proofs_run16 Properties_run2
  Model_poisson Spec_poisson Spec_poisson2 Spec_poisson3 Proofs_poisson6 Proofs_poisson7 Proofs_poisson8 Proofs_poisson9 Proofs_poisson10 Properties_poisson Properties_poisson2.
From Verif Require Import Model_linsys Model_var Spec_var Proofs_var1.
From Verif Require Spec_linsys Proofs_poisson2.
Open Scope Z_scope.

(** ** C86 *)
(** C86.  Any statements were executed on the domain; the last one that constructed something constructed e, which was a variable (vb = []: no prescribed values, all 0) or the
    linear system of a variable with the same kinds of sides and the prescribed values vb; nothing was constructed since.  Then compute_Sol_gradient of any system whose variable has
    the prescribed values vs interpolates with vs but computes the slopes with the prescribed values vb.  (For vb = vs this is what C76 promises.) *)
Theorem C86_last_construction : forall f32 dim SIZE cells nodes labels npart0 epart bc vs,
  regular dim SIZE cells nodes labels npart0 epart bc vs ->
  exists st, setup f32 dim SIZE cells nodes labels npart0 epart = Ok st /\
    forall before e later vb l X g, (forall x, In x later -> x = Otherwise) ->
    (e = MadeVariable /\ vb = []) \/ (exists l0 sol user0 ss, e = MadeSystem ss /\ bc_valid dim bc vb /\ history bc vb SIZE st l0 /\ new_system SIZE st l0 sol user0 = Ok ss) ->
    history bc vs SIZE st l -> holding SIZE st X l -> (forall r, 0 <= r < SIZE -> exists x, get g r = Ok x /\ zlen x = zlen (dm_cellid (domain_of (se_domains st) r))) ->
    exists l' gs N G, gradient_after SIZE st (before ++ e :: later) l g = Ok (l', gs) /\ history bc vs SIZE st l' /\ holding SIZE st X l' /\ node_field SIZE st N l' /\ face_field dim cells SIZE st G gs /\
      (forall c k, iscell cells c -> In k (cell cells c) -> nodal_value dim cells nodes labels bc vs X k (N k)) /\
      (forall c F, iscell cells c -> In F (facets (cell cells c)) -> solution_slope dim cells nodes labels bc vb X N c F (vneg (G c F))).
Proof.
  intros f32 dim SIZE cells nodes labels npart0 epart bc vs RG. regular_setup f32 RG st E RP CS HX. exists st. split; [exact E|]. intros before e later vb l X g HL HE H HO HG.
  assert (SH : shared st (before ++ e :: later) = shared_step st (shared st before) e).
  { unfold shared. rewrite fold_left_app. cbn [fold_left]. generalize (shared_step st (fold_left (shared_step st) before []) e). clear - HL. induction later as [|x t IH]; intros b; [reflexivity|]. cbn [fold_left]. rewrite (HL x (or_introl eq_refl)). cbn [shared_step]. apply IH. intros y Hy. apply HL. right. exact Hy. }
  pose proof (history_holds_all dim SIZE cells nodes labels npart0 epart st VM PL VS RP SC CS HX bc vs BV CW SP l X H HO) as HO1.
  assert (HB : forall r, 0 <= r < SIZE -> exists B, get (shared st (before ++ e :: later)) r = Ok B /\ boundary_values (dom_bc (domain_of (se_domains st) r)) bc vb B).
  { rewrite SH. intros r Hr. destruct HE as [(-> & ->)|(l0 & sol & user0 & ss & -> & BVb & H0 & ES)]; cbn [shared_step].
    - pose proof (dom11 dim SIZE cells nodes labels epart st RP r Hr) as ED. destruct (get_ok_nthZ (domain_of (se_domains st) r) _ _ _ ED (proj1 Hr)) as (LT & _). exists (fresh_bord (domain_of (se_domains st) r)). split; [exact (get_map _ _ _ _ ED (conj (proj1 Hr) LT))|].
      unfold fresh_bord, boundary_values. cbn [pb_face pb_node dom_bc bd_name bd_nbnodes bd_oldname]. pose proof (zlen_nonneg (dm_name (domain_of (se_domains st) r))). pose proof (zlen_nonneg (dm_vertex (domain_of (se_domains st) r))). rewrite !zlen_zeros_like by assumption. split; [reflexivity|]. split; [reflexivity|]. split; intros s k _ Hk _; rewrite nthZ_zeros_like by exact Hk; reflexivity.
    - destruct (history_holds dim SIZE cells nodes labels npart0 epart st VM PL VS RP SC CS HX bc vb BVb CW SP l0 H0) as (X0 & HO0). destruct (system_bord dim SIZE cells nodes labels npart0 epart st VM PL VS RP SC CS bc vb BVb SP X0 l0 sol user0 ss HO0 ES r Hr) as (B & EB & BD). exists B. split; [exact EB | exact (data_values _ _ _ _ BD)]. }
  destruct (solution_gradient_with dim SIZE cells nodes labels npart0 epart st VM PL VS RP SC CS HX bc vs BV CW SP vb X l _ g HO1 HB HG) as (l' & gs & N & G & E1 & E2 & A & B & C & D & F).
  exists l', gs, N, G. split; [exact E1|]. split; [exact (h_interpolated bc vs SIZE st l l' H E2)|]. split; [exact A|]. split; [exact B|]. split; [exact C|]. split; [exact D | exact F].
Qed.
Print Assumptions C86_last_construction.
(** The promise of C76 is kept when the system is the last thing constructed on the domain (as in all the scripts of the repository). *)
Theorem C86_system_last : forall f32 dim SIZE cells nodes labels npart0 epart bc vs,
  regular dim SIZE cells nodes labels npart0 epart bc vs ->
  exists st, setup f32 dim SIZE cells nodes labels npart0 epart = Ok st /\
    forall before later l0 sol user0 ss l X g, (forall x, In x later -> x = Otherwise) -> history bc vs SIZE st l0 -> new_system SIZE st l0 sol user0 = Ok ss ->
    history bc vs SIZE st l -> holding SIZE st X l -> (forall r, 0 <= r < SIZE -> exists x, get g r = Ok x /\ zlen x = zlen (dm_cellid (domain_of (se_domains st) r))) ->
    exists l' gs N G, gradient_after SIZE st (before ++ MadeSystem ss :: later) l g = Ok (l', gs) /\ holding SIZE st X l' /\ face_field dim cells SIZE st G gs /\
      (forall c k, iscell cells c -> In k (cell cells c) -> nodal_value dim cells nodes labels bc vs X k (N k)) /\
      (forall c F, iscell cells c -> In F (facets (cell cells c)) -> solution_slope dim cells nodes labels bc vs X N c F (vneg (G c F))).
Proof.
  intros f32 dim SIZE cells nodes labels npart0 epart bc vs RG. destruct (C86_last_construction f32 _ _ _ _ _ _ _ _ _ RG) as (st & E & H). exists st. split; [exact E|]. intros before later l0 sol user0 ss l X g HL H0 ES H1 HO HG.
  destruct (H before (MadeSystem ss) later vs l X g HL (or_intror (ex_intro _ l0 (ex_intro _ sol (ex_intro _ user0 (ex_intro _ ss (conj eq_refl (conj (rg_bc _ _ _ _ _ _ _ _ _ RG) (conj H0 ES)))))))) H1 HO HG) as (l' & gs & N & G & A & _ & B & _ & C & D & F). exists l', gs, N, G. auto.
Qed.
(** It is broken by constructing any variable afterwards: the unit square, value 1 prescribed at the bottom, the field of the solution is 1 everywhere and its gradient 0; after
    one more Variable(domain) the computed gradient at the bottom is not 0. *)
Theorem C86_later_variable_refuted : forall f32 l0 ss l g st, setup f32 2 2 sq sq_v [4; 4; 3; 3] [0; 0; 1; 1] [0; 1] = Ok st -> history sq_bc sq_bcv 2 st l0 -> new_system 2 st l0 (Some SMumps) [None; None] = Ok ss ->
  history sq_bc sq_bcv 2 st l -> holding 2 st (fun _ => 1%R) l -> (forall r, 0 <= r < 2 -> exists x, get g r = Ok x /\ zlen x = zlen (dm_cellid (domain_of (se_domains st) r))) ->
  (exists l' gs, gradient_after 2 st [MadeVariable; MadeSystem ss] l g = Ok (l', gs) /\ face_field 2 sq 2 st (fun _ _ => vzero) gs) /\
  exists l' gs G, gradient_after 2 st [MadeVariable; MadeSystem ss; MadeVariable] l g = Ok (l', gs) /\ face_field 2 sq 2 st G gs /\ G 0 [0; 1] <> vzero.
Proof.
  intros f32 l0 ss l g st E H0 ES H HO HG. split; [exact (C76_square f32 l0 ss l g st E H0 ES H HO HG)|].
  destruct (C86_last_construction f32 _ _ _ _ _ _ _ _ _ (proj2 C70_square)) as (st' & E' & HR). rewrite E in E'. injection E' as <-.
  destruct (HR [MadeVariable; MadeSystem ss] MadeVariable [] [] l (fun _ => 1%R) g ltac:(intros x []) (or_introl (conj eq_refl eq_refl)) H HO HG) as (l' & gs & N & G & E1 & _ & _ & _ & FF & _ & HS).
  exists l', gs, G. split; [exact E1|]. split; [exact FF|]. intros EG. assert (IC : iscell sq 0) by (unfold iscell; change (zlen sq) with 2; lia). assert (IF : In [0; 1] (facets (cell sq 0))) by (cbn; tauto).
  destruct (HS 0 [0; 1] IC IF) as (_ & _ & B). rewrite EG in B. change (beside sq 0 [0; 1]) with (@None Z) in B. cbv iota in B.
  assert (HF : has_facet 2 sq 0 [0; 1]) by (apply (in_facets 2 sq sq_v [4; 4; 3; 3] C68_square 0 [0; 1] IC IF)).
  pose proof (Proofs_poisson3.depth_positive 2 sq sq_v [4; 4; 3; 3] C68_square 0 [0; 1] HF) as DP. unfold dirichlet_flux in B. cbv zeta in B. replace (facet_fixed 2 sq_v [4; 4; 3; 3] sq_bc [] [0; 1]) with (Some 0%R) in B by reflexivity.
  set (n := outward sq sq_v 0 [0; 1]) in *. set (q := vdot n (vsub (facet_centre sq_v [0; 1]) (centre 2 sq sq_v 0))) in *. assert (NN : vdot n n <> 0%R).
  { destruct (area_outward 2 sq sq_v [4; 4; 3; 3] C68_square 0 [0; 1] HF) as (k & Hk & EA). pose proof (area_nonzero 2 sq sq_v [4; 4; 3; 3] C68_square 0 [0; 1] HF) as AN. rewrite EA in AN. fold n in AN. rewrite vdot_scal, vdot_comm, vdot_scal in AN. intros Z0. apply AN. rewrite Z0. ring. }
  assert (EZ : vneg vzero = vzero) by (unfold Spec_linsys.vneg, vzero; cbn [px py pz]; f_equal; ring). rewrite EZ, vdot_zero_l in B. unfold Rdiv in B. symmetry in B. apply Rmult_integral in B as [B|B]; [apply Rmult_integral in B as [B|B]; [lra | contradiction]|]. apply Rinv_neq_0_compat in B; [exact B | lra].
Qed.

(** ** C87 *)
(** C87.  Two variables of one domain with any boundary conditions and any past hold the fields X and Y: their sum, difference, product (any operation on numbers) is computed on all
    the ranks without communication and holds the sum, difference, product; also after any number of such operations. *)
Theorem C87_arithmetic : forall f32 dim SIZE cells nodes labels npart0 epart, valid_mesh dim cells nodes labels -> valid_split dim SIZE cells nodes npart0 epart ->
  exists st, setup f32 dim SIZE cells nodes labels npart0 epart = Ok st /\
    forall f X Y l1 l2, holding SIZE st X l1 -> holding SIZE st Y l2 -> exists l3, operate_all f SIZE st l1 l2 = Ok l3 /\ holding SIZE st (fun c => f (X c) (Y c)) l3.
Proof.
  intros f32 dim SIZE cells nodes labels npart0 epart VM VS. destruct (C68_parallel_setup f32 _ _ _ _ _ _ _ VM VS) as (st & E & RP & CS & HX). exists st. split; [exact E|]. intros f X Y l1 l2 H1 H2. exact (operate_ok dim SIZE cells nodes labels npart0 epart st VM VS RP CS f X Y l1 l2 H1 H2).
Qed.
Print Assumptions C87_arithmetic.
(** A quotient likewise if Y is nowhere 0; otherwise exactly the ranks that own a cell where Y is 0 raise ValueError, the others go on. *)
Theorem C87_division : forall f32 dim SIZE cells nodes labels npart0 epart, valid_mesh dim cells nodes labels -> valid_split dim SIZE cells nodes npart0 epart ->
  exists st, setup f32 dim SIZE cells nodes labels npart0 epart = Ok st /\
    forall X Y l1 l2, holding SIZE st X l1 -> holding SIZE st Y l2 ->
    ((forall c, iscell cells c -> Y c <> 0%R) -> exists l3, divide_all SIZE st l1 l2 = Ok l3 /\ holding SIZE st (fun c => X c / Y c)%R l3) /\
    forall r, 0 <= r < SIZE -> exists D a b, get (se_domains st) r = Ok D /\ get l1 r = Ok a /\ get l2 r = Ok b /\
      ((exists c, In c (owned cells epart r) /\ Y c = 0%R) -> divide (dom_bc D) a b = Err ValueError) /\
      ((forall c, In c (owned cells epart r) -> Y c <> 0%R) -> exists v, divide (dom_bc D) a b = Ok v).
Proof.
  intros f32 dim SIZE cells nodes labels npart0 epart VM VS. destruct (C68_parallel_setup f32 _ _ _ _ _ _ _ VM VS) as (st & E & RP & CS & HX). exists st. split; [exact E|]. intros X Y l1 l2 H1 H2.
  assert (OWN : forall r, 0 <= r < SIZE -> forall c, iscell_of (domain_of (se_domains st) r) c -> In (gcell (domain_of (se_domains st) r) c) (owned cells epart r)).
  { intros r Hr c Hc. rewrite <- (pa_cells _ _ _ _ _ _ _ (rp_part _ _ _ _ _ _ _ RP r Hr)). apply nthZ_In. exact Hc. }
  split.
  - intros HY. destruct (holding_intro dim SIZE cells nodes npart0 epart st VS (fun r => do D <- get (se_domains st) r; do a <- get l1 r; do b <- get l2 r; divide (dom_bc D) a b) (fun c => X c / Y c)%R) as (l & El & _ & H & _); [|exists l; auto].
    intros r Hr. destruct (operate_rank dim SIZE cells nodes labels epart st VM RP CS Rdiv X Y l1 l2 r H1 H2 Hr) as (v0 & a & b & z & _ & Ea & Eb & Eo & Lz & Vz). rewrite (dom11 dim SIZE cells nodes labels epart st RP r Hr), Ea, Eb. cbn [bind]. exists (assign_cell v0 z), z.
    split; [rewrite (divide_rank dim SIZE cells nodes labels epart st VM RP CS Y l2 r a b H2 Hr Eb); [exact Eo|]; intros c Hc; apply HY; apply (gcell_owned dim cells nodes labels epart r _ (rp_part _ _ _ _ _ _ _ RP r Hr) c Hc)|]. split; [apply assigned_cell|]. auto.
  - intros r Hr. destruct (operate_rank dim SIZE cells nodes labels epart st VM RP CS Rdiv X Y l1 l2 r H1 H2 Hr) as (v0 & a & b & z & _ & Ea & Eb & Eo & Lz & Vz). exists (domain_of (se_domains st) r), a, b. split; [exact (dom11 dim SIZE cells nodes labels epart st RP r Hr)|]. split; [exact Ea|]. split; [exact Eb|]. split.
    + intros (c & Hc & Y0). rewrite <- (pa_cells _ _ _ _ _ _ _ (rp_part _ _ _ _ _ _ _ RP r Hr)) in Hc. apply (In_nthZ (-1)) in Hc as (i & Hi & <-). exact (divide_zero dim SIZE cells nodes labels epart st VM RP CS X Y l1 l2 r a b i H1 H2 Hr Ea Eb Hi Y0).
    + intros HY. exists (assign_cell v0 z). rewrite (divide_rank dim SIZE cells nodes labels epart st VM RP CS Y l2 r a b H2 Hr Eb); [exact Eo|]. intros c Hc. apply HY. exact (OWN r Hr c Hc).
Qed.
Print Assumptions C87_division.
(** The result has no boundary values: after update_values the halo cells hold the values of their owners, but the ghost value at every face of the boundary is 0 whatever the fields are
    (the boundary objects keep the zeros the result was constructed with). *)
Theorem C87_ghosts : forall f32 dim SIZE cells nodes labels npart0 epart, valid_mesh dim cells nodes labels -> valid_split dim SIZE cells nodes npart0 epart ->
  exists st, setup f32 dim SIZE cells nodes labels npart0 epart = Ok st /\
    forall f X Y l1 l2, holding SIZE st X l1 -> holding SIZE st Y l2 -> exists l3 l4, operate_all f SIZE st l1 l2 = Ok l3 /\ update_values SIZE st l3 = Ok l4 /\ holding SIZE st (fun c => f (X c) (Y c)) l4 /\
      forall r, 0 <= r < SIZE -> let D := domain_of (se_domains st) r in exists v h g, get l4 r = Ok v /\ get (va_heap v) r_halo = Ok h /\ ghost_of v = Ok g /\
        (forall i, ishalo_of D i -> nthZ 0%R h i = f (X (ghalo D i)) (Y (ghalo D i))) /\ forall i, isface D i -> 1 <= nthZ 0 (dm_name D) i <= 2 * dim -> nthZ 0%R g i = 0%R.
Proof.
  intros f32 dim SIZE cells nodes labels npart0 epart VM VS. destruct (C68_parallel_setup f32 _ _ _ _ _ _ _ VM VS) as (st & E & RP & CS & HX). exists st. split; [exact E|]. intros f X Y l1 l2 H1 H2. exact (operate_update dim SIZE cells nodes labels npart0 epart st VM VS RP CS HX f X Y l1 l2 H1 H2).
Qed.
Print Assumptions C87_ghosts.

(** ** C88 *)
Lemma norm_zero order cells nodes l Q : (forall c, In c l -> 0 < measure_of cells nodes c)%R -> norm_of order cells nodes l Q = 0%R <-> forall c, In c l -> Q c = 0%R.
Proof.
  intros HM. assert (Z1 : forall g : Z -> R, (forall c, In c l -> 0 <= g c)%R -> rsum (map g l) = 0%R <-> forall c, In c l -> g c = 0%R).
  { clear HM. intros g. induction l as [|c t IH]; intros HG; [split; [intros _ c [] | reflexivity]|]. cbn [map]. rewrite rsum_cons. pose proof (HG c (or_introl eq_refl)). assert (N : (0 <= rsum (map g t))%R) by (apply rsum_map_nonneg; intros x Hx; apply HG; right; exact Hx). specialize (IH (fun x Hx => HG x (or_intror Hx))). split.
    - intros E x [<-|Hx]; [lra|]. apply IH; [lra | exact Hx].
    - intros E. rewrite (E c (or_introl eq_refl)), (proj2 IH); [ring|]. intros x Hx. apply E. right. exact Hx. }
  assert (A : forall c, In c l -> (0 <= Rabs (Q c) * measure_of cells nodes c)%R /\ ((Rabs (Q c) * measure_of cells nodes c)%R = 0%R <-> Q c = 0%R)).
  { intros c Hc. pose proof (HM c Hc). pose proof (Rabs_pos (Q c)). split; [apply Rmult_le_pos; lra|]. split; [|intros ->; rewrite Rabs_R0; ring]. intros E. apply Rmult_integral in E as [E|E]; [|lra]. destruct (Req_dec (Q c) 0) as [|N]; [assumption|]. apply Rabs_no_R0 in N. contradiction. }
  unfold norm_of. destruct (order =? 1).
  - unfold norm1. rewrite (Z1 (fun c => Rabs (Q c) * measure_of cells nodes c)%R) by (intros c Hc; apply A; exact Hc). split; intros E c Hc; apply (proj2 (A c Hc)); auto.
  - unfold norm2. assert (NN : (0 <= rsum (map (fun c => Rsqr (Rabs (Q c) * measure_of cells nodes c)) l))%R) by (apply rsum_map_nonneg; intros; apply Rle_0_sqr).
    transitivity (rsum (map (fun c => Rsqr (Rabs (Q c) * measure_of cells nodes c)) l) = 0%R); [split; [apply sqrt_eq_0; exact NN | intros ->; apply sqrt_0]|].
    rewrite (Z1 (fun c => Rsqr (Rabs (Q c) * measure_of cells nodes c))) by (intros; apply Rle_0_sqr). split; intros E c Hc; [apply (proj2 (A c Hc)), Rsqr_0_uniq, (E c Hc) | rewrite (proj2 (proj2 (A c Hc)) (E c Hc)); apply Rsqr_0].
Qed.
(** C88.  norml2(exact, order) on rank r, for the default order (1) and order 2: the variable holds X and exact[i] is E at the i-th cell of the rank.  The result is the quotient of the
    norms of X - E and of E over the cells owned by the rank, each |value| multiplied by the measure of its cell; nan or inf exactly if E is 0 on all of them; and 0 exactly if X = E
    on all of them.  A list of another length raises AssertionError.  No communication takes place. *)
Theorem C88_norm : forall f32 dim SIZE cells nodes labels npart0 epart, valid_mesh dim cells nodes labels -> valid_split dim SIZE cells nodes npart0 epart ->
  exists st, setup f32 dim SIZE cells nodes labels npart0 epart = Ok st /\
    forall X l r order, holding SIZE st X l -> 0 <= r < SIZE -> order = None \/ order = Some 1 \/ order = Some 2 ->
    exists D v, get (se_domains st) r = Ok D /\ get l r = Ok v /\
      (forall exact, zlen exact <> zlen (owned cells epart r) -> norml2 D v exact order = Err AssertionError) /\
      forall E, let norm := norm_of (match order with Some o => o | None => 1 end) cells nodes (owned cells epart r) in
        exists q, norml2 D v (map E (owned cells epart r)) order = Ok q /\
          (q = None <-> forall c, In c (owned cells epart r) -> E c = 0%R) /\
          (forall x, q = Some x -> x = (norm (fun c => X c - E c) / norm E)%R /\ (x = 0%R <-> forall c, In c (owned cells epart r) -> X c = E c)).
Proof.
  intros f32 dim SIZE cells nodes labels npart0 epart VM VS. destruct (C68_parallel_setup f32 _ _ _ _ _ _ _ VM VS) as (st & E0 & RP & CS & HX). exists st. split; [exact E0|]. intros X l r order HO Hr Hord.
  destruct (holding_get SIZE st X l r HO Hr) as (_ & v & w & Ev & Ew & Lw & Vw). set (D := domain_of (se_domains st) r) in *. pose proof (rp_part _ _ _ _ _ _ _ RP r Hr) as PA. fold D in PA. exists D, v. split; [exact (dom11 dim SIZE cells nodes labels epart st RP r Hr)|]. split; [exact Ev|].
  destruct (pa_sizes _ _ _ _ _ _ _ PA) as (_ & LC & LV & _). pose proof (pa_cells _ _ _ _ _ _ _ PA) as OW. rewrite <- OW. split.
  { intros exact NE. unfold norml2. rewrite LC. rewrite (proj2 (Z.eqb_neq _ _)) by lia. reflexivity. }
  intros E norm. unfold norml2. rewrite LC, zlen_map, Z.eqb_refl. cbn [negb]. rewrite Ew. cbn [bind].
  assert (HE : forall i, 0 <= i < zlen (dm_loctoglob D) -> get (map E (dm_loctoglob D)) i = Ok (E (gcell D i))). { intros i Hi. rewrite (get_nthZ 0%R) by (rewrite zlen_map; exact Hi). f_equal. rewrite (nthZ_map _ (-1)) by exact Hi. reflexivity. }
  assert (HM : forall i, 0 <= i < zlen (dm_loctoglob D) -> get (dm_volume D) i = Ok (measure_of cells nodes (gcell D i))). { intros i Hi. rewrite (get_nthZ 0%R) by lia. f_equal. exact (proj1 (proj2 (proj2 (pa_cell _ _ _ _ _ _ _ PA i Hi)))). }
  rewrite (mapM_ok _ (fun i => Rabs (X (gcell D i) - E (gcell D i)) * measure_of cells nodes (gcell D i))%R); [|intros i Hi; apply in_range in Hi; rewrite (get_nthZ 0%R) by lia; rewrite (Vw i Hi), HE, HM by exact Hi; reflexivity]. cbn [bind].
  rewrite (mapM_ok _ (fun i => Rabs (E (gcell D i)) * measure_of cells nodes (gcell D i))%R); [|intros i Hi; apply in_range in Hi; rewrite HE, HM by exact Hi; reflexivity]. cbn [bind].
  assert (POS : forall c, In c (dm_loctoglob D) -> (0 < measure_of cells nodes c)%R). { intros c Hc. apply (In_nthZ (-1)) in Hc as (i & Hi & <-). destruct (pa_cell _ _ _ _ _ _ _ PA i Hi) as (_ & _ & EV & PV). rewrite EV in PV. exact PV. }
  assert (VN : forall Q : Z -> R, vector_norm (match order with None => 1 | Some o => o end) (map (fun i => Rabs (Q (gcell D i)) * measure_of cells nodes (gcell D i))%R (range (zlen (dm_loctoglob D)))) = norm Q).
  { intros Q. unfold norm. rewrite <- (map_nthZ_range (-1) (dm_loctoglob D)) at 2. assert (P1 : vector_norm 1 (map (fun i => Rabs (Q (gcell D i)) * measure_of cells nodes (gcell D i))%R (range (zlen (dm_loctoglob D)))) = norm_of 1 cells nodes (map (gcell D) (range (zlen (dm_loctoglob D)))) Q).
    { unfold vector_norm, norm_of. cbn [Z.eqb Pos.eqb]. unfold norm1. rewrite !map_map. apply rsum_map_ext. intros i Hi. apply in_range in Hi. apply Rabs_right, Rle_ge, Rmult_le_pos; [apply Rabs_pos|]. apply Rlt_le, POS, nthZ_In, Hi. }
    destruct Hord as [-> | [-> | ->]]; [exact P1 | exact P1|]. unfold vector_norm, norm_of. cbn [Z.eqb Pos.eqb]. unfold norm2. rewrite !map_map. reflexivity. }
  rewrite (VN (fun c => X c - E c)%R), (VN E). eexists. split; [reflexivity|]. split.
  - rewrite <- (norm_zero (match order with Some o => o | None => 1 end) cells nodes (dm_loctoglob D) E POS). fold norm. destruct (Req_EM_T (norm E) 0) as [Z0|Z0]; split; try congruence; discriminate.
  - intros x. destruct (Req_EM_T (norm E) 0) as [Z0|Z0]; [discriminate|]. intros Ex. assert (EX : x = (norm (fun c => X c - E c) / norm E)%R) by congruence. split; [exact EX|]. rewrite EX.
    transitivity (norm (fun c => X c - E c)%R = 0%R).
    { split; [|intros ->; unfold Rdiv; ring]. intros EQ. unfold Rdiv in EQ. apply Rmult_integral in EQ as [EQ|EQ]; [exact EQ|]. exfalso. exact (Rinv_neq_0_compat _ Z0 EQ). }
    unfold norm. rewrite (norm_zero _ cells nodes (dm_loctoglob D) _ POS). split; intros H c Hc; specialize (H c Hc); lra.
Qed.
Print Assumptions C88_norm.
