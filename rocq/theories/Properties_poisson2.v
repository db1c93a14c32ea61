(** * Properties_poisson2: the gradient of the solution (C76).  Vocabulary: [Spec_poisson], [Spec_poisson3], [Spec_run3]. *)
From Coq Require Import Reals Lra Permutation Sorted.
From Verif Require Import Py PyLemmas Model_part Spec_part Model_label Model_conn Spec_conn Model_geom Spec_geom Proofs_geom1 Model_interp Spec_interp Spec_lsq Model_fvm Spec_fvm Proofs_fvm1 Proofs_fvm2 Model_bc Spec_bc Spec_bc3
  Model_domain Spec_domain Model_parallel Spec_parallel Properties_geom Properties_parallel Model_comm Model_run Spec_run Proofs_run1 Proofs_run3 Proofs_run5 Proofs_run6 Properties_run Spec_run2 Model_run2 Proofs_run7 Proofs_run11 Proofs_run13 Proofs_run14 Proofs_run15 Spec_run3 Proofs_run16 Properties_run2
  Model_poisson Spec_poisson Spec_poisson2 Spec_poisson3 Proofs_poisson6 Proofs_poisson7 Proofs_poisson8 Proofs_poisson9 Proofs_poisson10 Properties_poisson.
From Verif Require Import Model_linsys.
From Verif Require Spec_linsys Proofs_linsys5.
Open Scope Z_scope.

(** C76.  A system was constructed for the variable, at any time; later, after any history, the ranks hold the field X.  Then compute_Sol_gradient succeeds on all
    the ranks: it interpolates to the nodes, and leaves at every face the negative gradient of X there, the same on all the ranks and on both sides of a facet. *)
Theorem C76_gradient : forall f32 dim SIZE cells nodes labels npart0 epart bc vs,
  regular dim SIZE cells nodes labels npart0 epart bc vs ->
  exists st, setup f32 dim SIZE cells nodes labels npart0 epart = Ok st /\
    forall l0 sol user0 ss l X g, history bc vs SIZE st l0 -> new_system SIZE st l0 sol user0 = Ok ss -> history bc vs SIZE st l -> holding SIZE st X l ->
    (forall r, 0 <= r < SIZE -> exists x, get g r = Ok x /\ zlen x = zlen (dm_cellid (domain_of (se_domains st) r))) ->
    exists l' gs N G, solution_gradient SIZE st (ss_bord ss) l g = Ok (l', gs) /\ history bc vs SIZE st l' /\ holding SIZE st X l' /\ node_field SIZE st N l' /\ face_field dim cells SIZE st G gs /\
      (forall c k, iscell cells c -> In k (cell cells c) -> nodal_value dim cells nodes labels bc vs X k (N k)) /\
      (forall c F, iscell cells c -> In F (facets (cell cells c)) -> solution_slope dim cells nodes labels bc vs X N c F (vneg (G c F))).
Proof.
  intros f32 dim SIZE cells nodes labels npart0 epart bc vs RG. regular_setup f32 RG st E RP CS HX. exists st. split; [exact E|]. intros l0 sol user0 ss l X g H0 ES H HO HG.
  destruct (history_holds dim SIZE cells nodes labels npart0 epart st VM PL VS RP SC CS HX bc vs BV CW SP l0 H0) as (X0 & HO0).
  pose proof (history_holds_all dim SIZE cells nodes labels npart0 epart st VM PL VS RP SC CS HX bc vs BV CW SP l X H HO) as HO1.
  destruct (solution_gradient_ok dim SIZE cells nodes labels npart0 epart st VM PL VS RP SC CS HX bc vs BV CW SP X l (ss_bord ss) g HO1 (system_bord dim SIZE cells nodes labels npart0 epart st VM PL VS RP SC CS bc vs BV SP X0 l0 sol user0 ss HO0 ES) HG) as (l' & gs & N & G & E1 & E2 & A & B & C & D & F).
  exists l', gs, N, G. split; [exact E1|]. split; [exact (h_interpolated bc vs SIZE st l l' H E2)|]. split; [exact A|]. split; [exact B|]. split; [exact C|]. split; [exact D | exact F].
Qed.
(** The slope is determined: at the facets between two cells, at the other sides' facets, and at the dirichlet facets all of whose nodes have prescribed values
    (elsewhere only its normal component is: C53_corner_refuted); it is the same seen from both cells. *)
Theorem C76_one_slope : forall dim cells nodes labels bc vs X N c F s, valid_mesh dim cells nodes labels -> has_facet dim cells c F -> solution_slope dim cells nodes labels bc vs X N c F s ->
  (forall d, beside cells c F = Some d -> solution_slope dim cells nodes labels bc vs X N d F s) /\
  (beside cells c F <> None \/ facet_fixed dim nodes labels bc vs F = None \/ (forall g, In g F -> node_fixed nodes labels bc vs g <> None) ->
   forall s', solution_slope dim cells nodes labels bc vs X N c F s' -> s' = s).
Proof.
  intros dim cells nodes labels bc vs X N c F s VM HF HS. split.
  - intros d E. exact (solution_slope_swap dim cells nodes labels bc vs VM X N c d F s HF E HS).
  - intros HK s' HS'. exact (solution_slope_unique dim cells nodes labels bc vs VM X N c F s' s HF HK HS' HS).
Qed.
(** When all the nodes of the dirichlet facets have prescribed values: for a solution X of the Poisson problem with source f, what the computed field (minus the
    gradient) carries out of a cell is minus the source in the cell: it has no divergence where there is no source. *)
Theorem C76_divergence : forall f32 dim SIZE cells nodes labels npart0 epart bc vs,
  regular dim SIZE cells nodes labels npart0 epart bc vs -> sides_closed dim cells nodes labels bc vs ->
  exists st, setup f32 dim SIZE cells nodes labels npart0 epart = Ok st /\
    forall l0 sol user0 ss l X g f, history bc vs SIZE st l0 -> new_system SIZE st l0 sol user0 = Ok ss -> history bc vs SIZE st l -> holding SIZE st X l ->
    (forall r, 0 <= r < SIZE -> exists x, get g r = Ok x /\ zlen x = zlen (dm_cellid (domain_of (se_domains st) r))) -> poisson dim cells nodes labels bc vs f X ->
    exists l' gs G, solution_gradient SIZE st (ss_bord ss) l g = Ok (l', gs) /\ face_field dim cells SIZE st G gs /\
      forall c, iscell cells c -> rsum (map (fun F => vdot (G c F) (outward cells nodes c F)) (facets (cell cells c))) = (- (measure_of cells nodes c * f c))%R.
Proof.
  intros f32 dim SIZE cells nodes labels npart0 epart bc vs RG SD. destruct (C76_gradient f32 _ _ _ _ _ _ _ _ _ RG) as (st & E & H). exists st. split; [exact E|].
  intros l0 sol user0 ss l X g f H0 ES H1 HO HG HP. destruct (H l0 sol user0 ss l X g H0 ES H1 HO HG) as (l' & gs & N & G & E1 & _ & _ & _ & FF & HN & HS). exists l', gs, G. split; [exact E1|]. split; [exact FF|].
  intros c Hc. pose proof (rg_mesh _ _ _ _ _ _ _ _ _ RG) as VM. pose proof (slope_laplacian dim cells nodes labels bc vs VM X N (fun F => vneg (G c F)) c SD HN Hc (fun F HF => HS c F Hc HF)) as LP.
  pose proof (laplacian_unique dim cells nodes labels bc vs VM X X c _ _ (fun _ _ => eq_refl) Hc LP (HP c Hc)) as EL.
  destruct (cells_closed dim SIZE cells nodes labels npart0 epart vzero VM (rg_split _ _ _ _ _ _ _ _ _ RG) c Hc) as (_ & MP).
  rewrite <- EL, <- Rmult_assoc, Rinv_r, Rmult_1_l by lra. rewrite <- rsum_map_opp. f_equal. apply map_ext. intros F. unfold Spec_linsys.vneg, vdot. cbn [px py pz]. ring.
Qed.
(** Constant fields with this constant prescribed have gradient 0. *)
Theorem C76_constant : forall dim cells nodes labels bc vs k X N c F s, valid_mesh dim cells nodes labels -> (forall l p, In (l, BDirichlet) bc -> prescribed_at vs l p = k) ->
  (forall d, iscell cells d -> X d = k) -> iscell cells c -> In F (facets (cell cells c)) -> (forall c k, iscell cells c -> In k (cell cells c) -> nodal_value dim cells nodes labels bc vs X k (N k)) ->
  beside cells c F <> None \/ facet_fixed dim nodes labels bc vs F = None \/ (forall g, In g F -> node_fixed nodes labels bc vs g <> None) ->
  solution_slope dim cells nodes labels bc vs X N c F s -> s = vzero.
Proof.
  intros dim cells nodes labels bc vs k X N c F s VM HK HX Hc HF HN HD HS. pose proof (in_facets dim cells nodes labels VM c F Hc HF) as HFc.
  assert (FX : forall t p y, fixed bc vs t p = Some y -> y = k). { intros t p y. unfold fixed. destruct (find _ bc) as [(z, ty)|] eqn:EF; [|discriminate]. apply find_some in EF as (EF & _). destruct ty; try discriminate. intros E. injection E as <-. apply HK. exact EF. }
  apply (solution_slope_unique dim cells nodes labels bc vs VM X N c F s vzero HFc HD HS). split; [intros _; reflexivity|]. assert (II : incl F (cell cells c)) by (apply HFc). split.
  - assert (NK : forall g, In g F -> shown_value nodes labels bc vs N g = k).
    { intros g Hg. unfold shown_value. destruct (node_fixed nodes labels bc vs g) as [y|] eqn:EF; [exact (FX _ _ _ EF)|]. destruct (HN c g Hc (II g Hg)) as (c0 & s0 & B & ->).
      destruct (fun H => fit_constant dim k _ c0 s0 H B) as (-> & ->); [|unfold affine; rewrite vdot_zero_l; ring]. intros q Hq. unfold around_node in Hq. apply in_app_or in Hq as [Hq|Hq]; apply in_map_iff in Hq as (p & <- & Hp).
      - cbn [sample snd]. apply HX. apply in_touching in Hp. apply Hp.
      - destruct p as (d, F'). apply (in_boundary_at dim cells nodes labels VM) in Hp as (Hp & _). unfold mirrored. cbn [fst snd]. rewrite (HX d (proj1 (proj1 Hp))). destruct (facet_fixed dim nodes labels bc vs F') as [y|] eqn:EQ; [|apply (free_boundary _ _ _ _ _ _ _ EQ)].
        unfold facet_fixed, fixed in EQ. unfold boundary_value. destruct (find _ bc) as [(l, t)|] eqn:EL; [|discriminate EQ]. destruct t; try discriminate EQ. injection EQ as EQ. apply find_some in EL as (EL & _). rewrite <- (HK l (facet_centre nodes F') EL). unfold prescribed_at, facet_centre. destruct (lookup vs l) as [[]|]; reflexivity. }
    intros a b Ha Hb _. rewrite vdot_zero_l, !NK by assumption. ring.
  - destruct (beside cells c F) as [d|] eqn:EB; rewrite vdot_zero_l.
    + rewrite (HX d (beside_cell _ _ _ _ EB)), (HX c Hc). ring.
    + unfold dirichlet_flux. cbv zeta. destruct (facet_fixed dim nodes labels bc vs F) as [y|] eqn:EF; [|reflexivity]. rewrite (FX _ _ _ EF), (HX c Hc). unfold Rdiv. ring.
Qed.

(** ** The unit square: after the solution the gradient is 0 *)
Theorem C76_square_closed : sides_closed 2 sq sq_v [4; 4; 3; 3] sq_bc sq_bcv.
Proof.
  intros c F g HB HF Hg. change (boundary_facets sq) with [(0, [1; 2]); (0, [0; 1]); (1, [2; 3]); (1, [0; 3])] in HB. cbn [In] in HB. destruct HB as [HB|[HB|[HB|[HB|[]]]]]; injection HB as <- <-; try (exfalso; apply HF; reflexivity). cbn [In] in Hg. destruct Hg as [<-|[<-|[]]]; discriminate.
Qed.
Theorem C76_square : forall f32 l0 ss l g st, setup f32 2 2 sq sq_v [4; 4; 3; 3] [0; 0; 1; 1] [0; 1] = Ok st -> history sq_bc sq_bcv 2 st l0 -> new_system 2 st l0 (Some SMumps) [None; None] = Ok ss ->
  history sq_bc sq_bcv 2 st l -> holding 2 st (fun _ => 1%R) l -> (forall r, 0 <= r < 2 -> exists x, get g r = Ok x /\ zlen x = zlen (dm_cellid (domain_of (se_domains st) r))) ->
  exists l' gs, solution_gradient 2 st (ss_bord ss) l g = Ok (l', gs) /\ face_field 2 sq 2 st (fun _ _ => vzero) gs.
Proof.
  intros f32 l0 ss l g st E H0 ES H HO HG. destruct (C76_gradient f32 _ _ _ _ _ _ _ _ _ (proj2 C70_square)) as (st' & E' & HR). rewrite E in E'. injection E' as <-. destruct (HR l0 _ _ ss l _ g H0 ES H HO HG) as (l' & gs & N & G & E1 & _ & _ & _ & (LF & FF) & HN & HS). exists l', gs. split; [exact E1|].
  split; [exact LF|]. intros r Hr D. destruct (FF r Hr) as (x & Ex & Lx & Q). exists x. split; [exact Ex|]. split; [exact Lx|]. intros c f F Hc HF Hf. fold D in Q. rewrite (Q c f F Hc HF Hf). pose proof (proj1 HF) as HC.
  assert (HI : In F (facets (cell sq (gcell D c)))) by (apply (facets_iff 2 sq sq_v (vm_mesh _ _ _ _ C68_square) _ F HC); exact HF). specialize (HS _ F HC HI).
  rewrite <- (vneg_vneg (G (gcell D c) F)). assert (EZ : vneg (G (gcell D c) F) = vzero); [|rewrite EZ; unfold Spec_linsys.vneg, vzero; cbn [px py pz]; f_equal; ring]. apply (C76_constant 2 sq sq_v [4; 4; 3; 3] sq_bc sq_bcv 1 (fun _ => 1%R) N (gcell D c) F _ C68_square); auto.
  - intros s p Hs. cbn in Hs. destruct Hs as [Hs|Hs]; [injection Hs as <-; reflexivity | exfalso; intuition discriminate].
  - destruct (beside sq (gcell D c) F) eqn:EB; [left; discriminate|]. right. destruct (facet_fixed 2 sq_v [4; 4; 3; 3] sq_bc sq_bcv F) eqn:EF; [|left; reflexivity]. right. intros k Hk. apply (C76_square_closed (gcell D c) F k); [|congruence | exact Hk].
    apply (in_boundary 2 sq sq_v [4; 4; 3; 3] C68_square). apply (beside_none 2 sq sq_v (vm_mesh _ _ _ _ C68_square) (vm_proper _ _ _ _ C68_square) _ F HF). exact EB.
Qed.
