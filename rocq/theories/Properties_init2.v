(** * Properties_init2: the shallow-water program started from the dam break (C92). *)
From Coq Require Import String Reals Lra Psatz Permutation Sorted.
From Verif Require Import Py PyLemmas Model_part Spec_part Model_label Model_conn Spec_conn Proofs_conn1 Proofs_conn2 Model_geom Spec_geom Proofs_geom1 Proofs_geom2 Proofs_geom3
  Model_halo Spec_halo Model_interp Spec_interp Spec_lsq Proofs_lsq Model_fvm Spec_fvm Proofs_fvm1 Proofs_fvm2 Model_bc Spec_bc Spec_bc3 Proofs_label Proofs_bc Proofs_bc2 Proofs_bc3 Model_domain Spec_domain
  Model_comm Model_parallel Spec_parallel Proofs_parallel1 Model_run Spec_run Proofs_run1 Proofs_run2 Proofs_run3 Proofs_run4 Proofs_run5 Proofs_run6 Spec_run2 Model_run2 Proofs_run7 Proofs_run8 Proofs_run9 Proofs_run10 Proofs_run11 Proofs_run12 Proofs_run13 Proofs_run14 Proofs_run15 Spec_run3 Proofs_run16 Properties_parallel Properties_run Properties_run2.
From Verif Require Import Model_sw Proofs_sw5 Proofs_sw6 Proofs_sw7 Model_run3 Spec_run4 Proofs_run17 Proofs_run18 Proofs_run19 Proofs_run20 Proofs_run21 Proofs_run22 Proofs_run23 Proofs_run24 Proofs_run26 Proofs_run27 Proofs_run25 Proofs_run28 Proofs_run29 Spec_run5.
From Verif Require Spec_sw Properties_sw Proofs_sw8 Properties_parallel.
From Verif Require Import Properties_run3 Proofs_save Model_init Spec_init Proofs_init.
From Verif Require Examples_run3 Properties_geom.
Import Properties_geom(sq, sq_v).
From Verif Require Import Properties_init.
Open Scope Z_scope.

Section Still.
Context (cells : list (list Z)) (nodes : list pt) (labels : list Z) (B : flow) (order : Z) (a b z0 : R) (W : Z -> q5).
Context (VM : valid_mesh 2 cells nodes labels) (OR : order <> 2) (ND : forall l, ~ In (l, BDirichlet) (fl_ubc B) /\ ~ In (l, BDirichlet) (fl_vbc B)).
Context (HA : (1/2 <= a)%R) (HB : (b <= 7 * a)%R) (HW : forall c, iscell cells c -> (a <= q_h (W c) <= b)%R /\ q_hu (W c) = 0%R /\ q_hv (W c) = 0%R /\ q_Z (W c) = z0).

Lemma still_value bc vs F : (forall l, ~ In (l, BDirichlet) bc) -> flow_value nodes labels bc vs F 0 = 0%R.
Proof.
  intros N. unfold flow_value, boundary_value. destruct (find _ bc) as [(l, t)|] eqn:EF; [|reflexivity]. apply find_some in EF as (HI & _). destruct t; try reflexivity; try (exfalso; exact (N l HI)). ring.
Qed.
(** the depth beyond a facet *)
Definition depth_beyond (c : Z) (F : list Z) : R := match beside cells c F with Some d => q_h (W d) | None => q_h (W c) end.
Definition rate (c : Z) (F : list Z) : R := (sqrt (g981 * ((q_h (W c) + depth_beyond c F) / 2)) * sqrt (vdot (outward cells nodes c F) (outward cells nodes c F)) / 2)%R.
Lemma beyond_bounds c F : has_facet 2 cells c F -> (a <= depth_beyond c F <= b)%R.
Proof.
  intros HF. unfold depth_beyond. destruct (beside cells c F) as [d|] eqn:EB; [|apply HW; exact (proj1 HF)]. destruct (beside_swap 2 cells nodes labels VM c d F HF EB) as (Hd & _). apply HW. exact (proj1 Hd).
Qed.
Lemma still_step S T P c F : has_facet 2 cells c F -> exists X, flux cells nodes labels B order W S T P c F = Some X /\ q_h X = (rate c F * (q_h (W c) - depth_beyond c F))%R.
Proof.
  intros HF. unfold flux, at_facet. replace (order =? 2) with false by lia. pose proof (outward_measures cells nodes labels c F VM HF) as MM. cbv zeta in MM. destruct (HW c (proj1 HF)) as (H1 & H2 & H3 & H4). pose proof (beyond_bounds c F HF) as HBB.
  assert (SR : exists r, r = match beside cells c F with Some d => W d | None => outside cells nodes labels B W c F end /\ q_h r = depth_beyond c F /\ q_hu r = 0%R /\ q_hv r = 0%R /\ q_Z r = z0).
  { unfold depth_beyond, outside. destruct (beside cells c F) as [d|] eqn:EB; eexists; (split; [reflexivity|]).
    - destruct (beside_swap 2 cells nodes labels VM c d F HF EB) as (Hd & _). destruct (HW d (proj1 Hd)) as (D1 & D2 & D3 & D4). auto.
    - cbn [q_h q_hu q_hv q_Z]. rewrite H2, H3. rewrite !still_value by (intros l; apply ND). auto. }
  destruct SR as (r & <- & R1 & R2 & R3 & R4). destruct (Examples_run3.still_flux (W c) r _ _ MM ltac:(lra) ltac:(lra) H2 H3 R2 R3) as (X & EX & EH). exists X. split; [exact EX|]. rewrite EH. unfold rate, Spec_sw.celerity. rewrite R1, R4, H4. field.
Qed.
Lemma rate_bounds c F : has_facet 2 cells c F -> (0 <= rate c F <= sqrt (g981 * q_h (W c)) * sqrt (vdot (outward cells nodes c F) (outward cells nodes c F)))%R.
Proof.
  intros HF. unfold rate. destruct (HW c (proj1 HF)) as (H1 & _). pose proof (beyond_bounds c F HF) as H2. set (l := sqrt (vdot _ _)). assert (L0 : (0 <= l)%R) by apply sqrt_pos. set (y := depth_beyond c F) in *. set (x := q_h (W c)) in *.
  assert (G0 : (0 < g981)%R) by (unfold g981; lra). assert (S0 : (0 <= sqrt (g981 * ((x + y) / 2)))%R) by apply sqrt_pos.
  assert (S1 : (sqrt (g981 * ((x + y) / 2)) <= 2 * sqrt (g981 * x))%R).
  { replace 2%R with (sqrt 4) at 2; [|replace 4%R with (2 * 2)%R by ring; apply sqrt_square; lra]. rewrite <- sqrt_mult by nra. apply sqrt_le_1_alt. nra. }
  split; [|nra]. apply Rmult_le_pos; [nra | lra].
Qed.
Lemma still_depth E cfl dt V : (0 < cfl <= 1)%R -> (0 <= fe_Dx E + fe_Dy E)%R -> (0 < dt)%R -> longest cells nodes E cfl W dt -> sw_step cells nodes labels B order E dt W V -> forall c, iscell cells c -> (a <= q_h (V c) <= b)%R.
Proof.
  intros HC HD HT (_ & (_ & AL) & _) (_ & S & T & P & N & G & Phi & H & HS & _ & HP & _ & EV) c Hc. rewrite (EV c Hc). unfold stepped. cbn [q_h slowed]. pose proof (volume_pos cells nodes labels VM c Hc) as MP. set (m := measure_of cells nodes c) in *.
  pose proof (vm_mesh _ _ _ _ VM) as WF. assert (INF : forall F, In F (facets (cell cells c)) -> has_facet 2 cells c F) by (intros F; apply (facets_iff 2 cells nodes WF c F Hc)).
  assert (SL : forall c, iscell cells c -> slowed E dt (W c) = W c). { intros d Hd. destruct (HW d Hd) as (D1 & D2 & D3 & _). assert (P0 : (0 < q_h (W d))%R) by lra; exact (proj1 (rest_slowed E _ dt (W d) (conj P0 (conj D2 (conj D3 eq_refl))))). }
  assert (HS' : slopes cells nodes labels order W S T P) by (intros O2; contradiction).
  assert (EP : forall F, In F (facets (cell cells c)) -> q_h (Phi c F) = (rate c F * (q_h (W c) - depth_beyond c F))%R).
  { intros F HF. pose proof (HP c F Hc HF) as A. rewrite (flux_same cells nodes labels B order VM _ W SL S T P S T P c F HS HS' Hc) in A. destruct (still_step S T P c F (INF F HF)) as (X & EX & HX). rewrite EX in A. injection A as <-. exact HX. }
  destruct (HW c Hc) as (H1 & _). set (x := q_h (W c)) in *. set (fs := facets (cell cells c)) in *.
  assert (WS : (rsum (map (rate c) fs) <= wave_speed cells nodes E (W c) c)%R).
  { unfold wave_speed. cbv zeta. fold fs. apply rsum_map_le. intros F HF. pose proof (rate_bounds c F (INF F HF)) as (_ & RB). pose proof (Rabs_pos (q_hu (W c) / q_h (W c) * px (outward cells nodes c F) + q_hv (W c) / q_h (W c) * py (outward cells nodes c F))) as AP.
    assert (VN : (0 <= vdot (outward cells nodes c F) (outward cells nodes c F))%R) by (unfold vdot; nra). assert (DN : (0 <= (fe_Dx E + fe_Dy E) * vdot (outward cells nodes c F) (outward cells nodes c F) / measure_of cells nodes c)%R) by (apply Rmult_le_pos; [apply Rmult_le_pos; assumption | left; apply Rinv_0_lt_compat; exact MP]). lra. }
  assert (R0 : (0 <= rsum (map (rate c) fs))%R) by (apply rsum_map_nonneg; intros F HF; apply rate_bounds, INF; exact HF).
  specialize (AL c Hc). fold m in AL. assert (TH : (dt * rsum (map (rate c) fs) <= m)%R). { apply Rle_trans with (dt * wave_speed cells nodes E (W c) c)%R; [apply Rmult_le_compat_l; lra|]. eapply Rle_trans; [exact AL|]. rewrite <- (Rmult_1_l m) at 2. apply Rmult_le_compat_r; lra. }
  set (Q := rsum (map (fun F => q_h (Phi c F)) fs)).
  assert (QU : (Q <= (x - a) * rsum (map (rate c) fs))%R). { unfold Q. rewrite <- rsum_map_scal. apply rsum_map_le. intros F HF. rewrite (EP F HF). pose proof (rate_bounds c F (INF F HF)). pose proof (beyond_bounds c F (INF F HF)). fold x. nra. }
  assert (QL : (- ((b - x) * rsum (map (rate c) fs)) <= Q)%R). { unfold Q. rewrite <- rsum_map_scal, <- rsum_map_opp. apply rsum_map_le. intros F HF. rewrite (EP F HF). pose proof (rate_bounds c F (INF F HF)). pose proof (beyond_bounds c F (INF F HF)). fold x. nra. }
  assert (EG : (dt * (gain cells Phi q_h c / m) = - (dt * Q / m))%R) by (unfold gain; fold fs Q; field; lra). rewrite EG.
  set (s := rsum (map (rate c) fs)) in *. assert (U1 : (dt * Q / m <= x - a)%R). { apply (Rmult_le_reg_r m); [exact MP|]. replace (dt * Q / m * m)%R with (dt * Q)%R by (field; lra). apply Rle_trans with (dt * ((x - a) * s))%R; [apply Rmult_le_compat_l; lra|]. replace (dt * ((x - a) * s))%R with ((x - a) * (dt * s))%R by ring. apply Rmult_le_compat_l; lra. }
  assert (U2 : (- (b - x) <= dt * Q / m)%R). { apply (Rmult_le_reg_r m); [exact MP|]. replace (dt * Q / m * m)%R with (dt * Q)%R by (field; lra). apply Rle_trans with (dt * (- ((b - x) * s)))%R; [|apply Rmult_le_compat_l; lra]. replace (dt * (- ((b - x) * s)))%R with (- ((b - x) * (dt * s)))%R by ring. assert ((b - x) * (dt * s) <= (b - x) * m)%R by (apply Rmult_le_compat_l; lra). lra. }
  lra.
Qed.
End Still.

(** Still water over a flat bottom, not shallower than 1/2 and nowhere seven times as deep as elsewhere, sides without Dirichlet conditions, first order, CFL number up to 1: the first step of
    the program succeeds on any number of ranks and the new depths lie between the smallest and the largest depth. *)
Theorem C92_still_water : forall f32 SIZE cells nodes labels npart0 epart B order co cfl a b z0 W,
  sw_regular SIZE cells nodes labels npart0 epart B -> (forall l, ~ In (l, BDirichlet) (fl_ubc B) /\ ~ In (l, BDirichlet) (fl_vbc B)) -> order <> 2 -> (0 < cfl <= 1)%R -> (0 <= co_Dx co + co_Dy co)%R -> complete_terms co ->
  (1/2 <= a)%R -> (b <= 7 * a)%R -> (forall c, iscell cells c -> (a <= q_h (W c) <= b)%R /\ q_hu (W c) = 0%R /\ q_hv (W c) = 0%R /\ q_Z (W c) = z0) ->
  exists st dt V, setup f32 2 SIZE cells nodes labels npart0 epart = Ok st /\ (0 < dt)%R /\ longest cells nodes (coefficients co) cfl W dt /\ sw_step cells nodes labels B order (coefficients co) dt W V /\
    (forall c, iscell cells c -> (a <= q_h (V c) <= b)%R) /\
    forall f w0 tfinal fuel, started_with B f -> values_of q5_zero SIZE (se_domains st) W w0 -> (0 < tfinal <= dt)%R -> (1 <= fuel)%nat -> exists s, sw_program fuel f order co cfl tfinal SIZE st w0 = Ok (Some (dt, s)) /\ held SIZE st V s.
Proof.
  intros f32 SIZE cells nodes labels npart0 epart B order co cfl a b z0 W RG ND OR HC HD TE HA HB HW. pose proof (sr_mesh _ _ _ _ _ _ _ RG) as VM. set (E := coefficients co).
  assert (WET : forall c, iscell cells c -> (0 < q_h (W c))%R) by (intros c Hc; destruct (HW c Hc); lra).
  destruct (C77_time_step SIZE cells nodes labels npart0 epart B E cfl W RG (proj1 HC) HD WET) as (dt & DP & LG).
  assert (SL : forall c, iscell cells c -> slowed E dt (W c) = W c). { intros d Hd. destruct (HW d Hd) as (D1 & D2 & D3 & _). assert (P0 : (0 < q_h (W d))%R) by lra; exact (proj1 (rest_slowed E _ dt (W d) (conj P0 (conj D2 (conj D3 eq_refl))))). }
  destruct (proj2 (C77_step SIZE cells nodes labels npart0 epart B order E dt W RG ltac:(lra))) as (V & SV).
  { split; [exact WET|]. intros S T P HS c F HF. assert (HS' : slopes cells nodes labels order W S T P) by (intros O2; contradiction). rewrite (flux_same cells nodes labels B order VM _ W SL S T P S T P c F HS HS' (proj1 HF)).
    destruct (still_step cells nodes labels B order a b z0 W VM OR ND HA HW S T P c F HF) as (X & -> & _). discriminate. }
  pose proof (still_depth cells nodes labels B order a b z0 W VM OR ND HA HB HW E cfl dt V HC HD DP LG SV) as HV.
  destruct (C77_runs f32 SIZE cells nodes labels npart0 epart B order co cfl RG (proj1 HC) HD TE) as (st & ES & R). exists st, dt, V. split; [exact ES|]. split; [exact DP|]. split; [exact LG|]. split; [exact SV|]. split; [exact HV|].
  intros f w0 tfinal fuel HF H0 HT Hf. destruct (C77_time_step SIZE cells nodes labels npart0 epart B E cfl V RG (proj1 HC) HD) as (dt1 & _ & LG1); [intros c Hc; destruct (HV c Hc); lra|].
  destruct (R f W w0 fuel tfinal dt 1%nat (0 + dt)%R V HF H0 LG) as (s & EP & HHs & _); [|exact Hf|].
  - apply (ev_step _ _ _ _ _ _ _ _ O 0%R dt W V dt1); [lra | exact SV | exact LG1|]. apply ev_done; [lra | reflexivity].
  - exists s. rewrite Rplus_0_l in EP. split; [exact EP | exact HHs].
Qed.
Print Assumptions C92_still_water.

(** The dam break of initialisation_SW: at first order the first step succeeds on any mesh and any number of ranks, and the depths stay between 2 and 5. *)
Theorem C92_dam_break : forall f32 SIZE cells nodes labels npart0 epart B order co cfl,
  sw_regular SIZE cells nodes labels npart0 epart B -> (forall l, ~ In (l, BDirichlet) (fl_ubc B) /\ ~ In (l, BDirichlet) (fl_vbc B)) -> order <> 2 -> (0 < cfl <= 1)%R -> (0 <= co_Dx co + co_Dy co)%R -> complete_terms co ->
  exists st dt V, setup f32 2 SIZE cells nodes labels npart0 epart = Ok st /\ (0 < dt)%R /\ sw_step cells nodes labels B order (coefficients co) dt (at_centres 2 cells nodes dam_break) V /\ (forall c, iscell cells c -> (2 <= q_h (V c) <= 5)%R) /\
    forall f arrays tfinal fuel, started_with B f -> allocated SIZE st arrays wa_h -> allocated SIZE st arrays wa_hu -> allocated SIZE st arrays wa_hv -> allocated SIZE st arrays wa_hc -> allocated SIZE st arrays wa_Z -> (0 < tfinal <= dt)%R -> (1 <= fuel)%nat ->
    exists out s, initialise initialisation_SW SIZE st arrays = Ok out /\ sw_program fuel f order co cfl tfinal SIZE st (map state_of_water out) = Ok (Some (dt, s)) /\ held SIZE st V s.
Proof.
  intros f32 SIZE cells nodes labels npart0 epart B order co cfl RG ND OR HC HD TE.
  destruct (C92_still_water f32 SIZE cells nodes labels npart0 epart B order co cfl 2 5 0 (at_centres 2 cells nodes dam_break) RG ND OR HC HD TE ltac:(lra) ltac:(lra)) as (st & dt & V & ES & DP & _ & SV & HV & R).
  { intros c _. unfold at_centres, dam_break. cbn [q_h q_hu q_hv q_Z]. destruct (Rlt_dec _ _); (split; [lra | auto]). }
  exists st, dt, V. split; [exact ES|]. split; [exact DP|]. split; [exact SV|]. split; [exact HV|]. intros f arrays tfinal fuel HF A1 A2 A3 A4 A5 HT Hf.
  destruct (C92_shallow f32 2 SIZE cells nodes labels npart0 epart (sr_mesh _ _ _ _ _ _ _ RG) (sr_split _ _ _ _ _ _ _ RG)) as (st' & ES' & G). rewrite ES in ES'. injection ES' as <-. destruct (G arrays A1 A2 A3 A4 A5) as (out & EO & VO).
  destruct (R f _ tfinal fuel HF VO HT Hf) as (s & EP & HS). exists out, s. auto.
Qed.
Print Assumptions C92_dam_break.

(** *** At second order *)
(** The limiter of the shallow-water program is computed from the tracer alone: where the tracer is constant (as it is initially) the slopes of the depth are not limited at all. *)
Theorem C92_depth_not_limited : forall cells nodes labels (W : Z -> q5) k S T P, valid_mesh 2 cells nodes labels -> (forall c, iscell cells c -> q_hc (W c) = k) -> slopes cells nodes labels 2 W S T P ->
  forall c F, iscell cells c -> P c = 1%R /\ q_h (at_facet cells nodes 2 W S T P c F) = (q_h (W c) + vdot (S c) (vsub (facet_centre nodes F) (centre 2 cells nodes c)))%R.
Proof.
  intros cells nodes labels W k S T P VM HK HS c F Hc. destruct (HS eq_refl c Hc) as (H1 & H2 & H3).
  assert (ET : T c = vzero) by (apply (const_slope cells nodes labels VM (fun c => q_hc (W c)) k) with (c := c); [exact HK | exact Hc | exact H2]).
  assert (EP : P c = 1%R).
  { destruct H3 as ((LE & _) & MX). apply Rle_antisym; [exact LE|]. apply MX. split; [lra|]. intros F' _ TH. exfalso. unfold rise in TH. rewrite ET in TH. unfold vdot, vzero in TH. cbn [px py pz] in TH. rewrite !Rmult_0_l, !Rplus_0_l, Rabs_R0 in TH. unfold threshold in TH. cbn [Z.eqb Pos.eqb] in TH. lra. }
  split; [exact EP|]. unfold at_facet. cbn [Z.eqb Pos.eqb q_h]. unfold reconstructed, rise. rewrite EP. change (IZR (2 - 1)) with 1%R. ring.
Qed.
Print Assumptions C92_depth_not_limited.

(** So the bounds of [C92_dam_break] do not hold at second order for the depths used in the fluxes: on the unit square of two triangles the dam break has depth 2 and 5 in its cells, and the
    depth at the right side is 2 - 15/52. *)
Lemma dam_square : q_h (at_centres 2 sq sq_v dam_break 0) = 2%R /\ q_h (at_centres 2 sq sq_v dam_break 1) = 5%R.
Proof.
  destruct sq_centres as (C0 & C1). unfold centre in C0, C1. unfold at_centres. rewrite C0, C1. unfold dam_break. cbn [px q_h]. split; destruct (Rlt_dec _ _); cbn [q_h]; lra.
Qed.
Lemma dam_slope : let X := fun c => q_h (at_centres 2 sq sq_v dam_break c) in cell_slope 2 sq sq_v [4; 4; 3; 3] free [] X 0 (P3 (-45/26) (45/26) 0) /\ cell_slope 2 sq sq_v [4; 4; 3; 3] free [] X 1 (P3 (-45/26) (45/26) 0).
Proof.
  intros X. destruct sq_centres as (C0 & C1). destruct sq_mirrors as (R1 & R2 & R3 & R4). destruct dam_square as (D0 & D1).
  assert (B : boundary_at sq 0 = [(0, [0; 1]); (1, [0; 3])] /\ boundary_at sq 1 = [(0, [1; 2]); (0, [0; 1])] /\ boundary_at sq 2 = [(0, [1; 2]); (1, [2; 3])] /\ boundary_at sq 3 = [(1, [2; 3]); (1, [0; 3])]) by (repeat split). destruct B as (B0 & B1 & B2 & B3).
  assert (N0 : neighbours sq 0 = [1] /\ neighbours sq 1 = [0]) by (split; reflexivity). destruct N0 as (N0 & N1).
  assert (BV : forall F x, boundary_value 2 sq_v [4; 4; 3; 3] free [] F x = x). { intros F x. unfold boundary_value. destruct (find _ free) as [(l, t)|] eqn:EF; [|reflexivity]. apply find_some in EF as (HI & _). unfold free in HI. apply in_map_iff in HI as (l' & E' & _). injection E' as _ <-. reflexivity. }
  change (X 0 = 2%R) in D0. change (X 1 = 5%R) in D1.
  assert (A0 : around_cell 2 sq sq_v [4; 4; 3; 3] free [] X 0 = [(P3 (1/3) (2/3) 0, 5%R); (P3 (2/3) (-1/3) 0, 2%R); (P3 (-1/3) (2/3) 0, 5%R); (P3 (4/3) (1/3) 0, 2%R); (P3 (2/3) (-1/3) 0, 2%R); (P3 (4/3) (1/3) 0, 2%R); (P3 (1/3) (4/3) 0, 5%R)]).
  { unfold around_cell. rewrite N0. change (cell sq 0) with [0; 1; 2]. cbn [flat_map map app]. rewrite B0, B1, B2. unfold sample, Spec_run2.mirrored. cbn [map app fst snd]. rewrite !BV, C0, C1, R1, R2, R3, R4, D0, D1. reflexivity. }
  assert (A1 : around_cell 2 sq sq_v [4; 4; 3; 3] free [] X 1 = [(P3 (2/3) (1/3) 0, 2%R); (P3 (2/3) (-1/3) 0, 2%R); (P3 (-1/3) (2/3) 0, 5%R); (P3 (1/3) (4/3) 0, 5%R); (P3 (-1/3) (2/3) 0, 5%R); (P3 (4/3) (1/3) 0, 2%R); (P3 (1/3) (4/3) 0, 5%R)]).
  { unfold around_cell. rewrite N1. change (cell sq 1) with [0; 3; 2]. cbn [flat_map map app]. rewrite B0, B2, B3. unfold sample, Spec_run2.mirrored. cbn [map app fst snd]. rewrite !BV, C0, C1, R1, R2, R3, R4, D0, D1. reflexivity. }
  unfold cell_slope. rewrite A0, A1, C0, C1, D0, D1.
  split; (split; [intros _; reflexivity|]); split; intros [gx gy gz] HG; specialize (HG eq_refl); cbn [pz] in HG; subst gz; unfold misfit_from, rsum, vdot, vsub; cbn [map fold_right fst snd px py pz];
    set (u := (gx + 45/26)%R); set (v := (gy - 45/26)%R); replace gx with (u - 45/26)%R by (unfold u; ring); replace gy with (v + 45/26)%R by (unfold v; ring); clearbody u v; clear gx gy;
    pose proof (Rle_0_sqr u) as Q1; pose proof (Rle_0_sqr v) as Q2; pose proof (Rle_0_sqr (u - v)) as Q3; pose proof (Rle_0_sqr (3 * u - v)) as Q4; pose proof (Rle_0_sqr (u - 3 * v)) as Q5; unfold Rsqr in *.
  - lra.
  - intros LE. assert (u * u = 0 /\ v * v = 0)%R as (U & V) by (split; lra). apply Rmult_integral in U, V. assert (u = 0)%R by tauto. assert (v = 0)%R by tauto. subst u v. f_equal; lra.
  - lra.
  - intros LE. assert (u * u = 0 /\ v * v = 0)%R as (U & V) by (split; lra). apply Rmult_integral in U, V. assert (u = 0)%R by tauto. assert (v = 0)%R by tauto. subst u v. f_equal; lra.
Qed.
Lemma dam_still p : (2 <= q_h (dam_break p) <= 5)%R /\ q_hu (dam_break p) = 0%R /\ q_hv (dam_break p) = 0%R /\ q_hc (dam_break p) = 0%R.
Proof. unfold dam_break. destruct (Rlt_dec _ _); cbn; (split; [lra | auto]). Qed.
Lemma dam_depth S T P : slopes sq sq_v [4; 4; 3; 3] 2 (at_centres 2 sq sq_v dam_break) S T P -> forall c F, has_facet 2 sq c F ->
  q_h (at_facet sq sq_v 2 (at_centres 2 sq sq_v dam_break) S T P c F) = if c =? 0 then if list_eq_dec Z.eq_dec F [0; 2] then (2 + 15/26)%R else (2 - 15/52)%R else if list_eq_dec Z.eq_dec F [0; 2] then (5 - 15/26)%R else (5 + 15/52)%R.
Proof.
  intros HS c F HF. pose proof (sr_mesh _ _ _ _ _ _ _ (proj1 Examples_run3.C77_square)) as VM. pose proof (proj1 HF) as Hc.
  destruct (C92_depth_not_limited sq sq_v [4; 4; 3; 3] (at_centres 2 sq sq_v dam_break) 0%R S T P VM (fun c _ => proj2 (proj2 (proj2 (dam_still _)))) HS c F Hc) as (_ & ->).
  assert (C : c = 0 \/ c = 1) by (unfold iscell in Hc; change (zlen sq) with 2 in Hc; lia). destruct (HS eq_refl c Hc) as (H1 & _). destruct dam_slope as (S0 & S1).
  assert (ES : S c = P3 (-45/26) (45/26) 0) by (destruct C as [-> | ->]; [exact (best_slope_unique _ _ _ _ _ _ S0 H1) | exact (best_slope_unique _ _ _ _ _ _ S1 H1)]). rewrite ES.
  destruct sq_centres as (C0 & C1). destruct Examples_run3.sq_middles as (M1 & M2 & M3 & M4 & M5). destruct dam_square as (D0 & D1).
  apply (facets_iff 2 sq sq_v Properties_geom.sq_wf c F Hc) in HF.
  destruct C as [-> | ->]; vm_compute in HF; destruct HF as [<-|[<-|[<-|[]]]]; rewrite ?C0, ?C1, ?M1, ?M2, ?M3, ?M4, ?M5, ?D0, ?D1; cbn [Z.eqb]; unfold vdot, vsub; cbn [px py pz];
    match goal with |- context [list_eq_dec Z.eq_dec ?a ?b] => destruct (list_eq_dec Z.eq_dec a b); [first [discriminate | lra] | first [congruence | lra]] end.
Qed.
Theorem C92_second_order_refuted : forall co dt, (0 <= dt)%R -> (forall c, iscell sq c -> (2 <= q_h (at_centres 2 sq sq_v dam_break c) <= 5)%R) /\
  exists V, sw_step sq sq_v [4; 4; 3; 3] Examples_run3.basin 2 (coefficients co) dt (at_centres 2 sq sq_v dam_break) V /\
  (exists S T P, slopes sq sq_v [4; 4; 3; 3] 2 (at_centres 2 sq sq_v dam_break) S T P) /\
  forall S T P, slopes sq sq_v [4; 4; 3; 3] 2 (at_centres 2 sq sq_v dam_break) S T P ->
    q_h (at_facet sq sq_v 2 (at_centres 2 sq sq_v dam_break) S T P 0 [1; 2]) = (2 - 15/52)%R /\ q_h (at_facet sq sq_v 2 (at_centres 2 sq sq_v dam_break) S T P 1 [2; 3]) = (5 + 15/52)%R.
Proof.
  intros co dt HD. pose proof Examples_run3.C79_walled_square as RG. pose proof (sr_mesh _ _ _ _ _ _ _ RG) as VM. set (E := coefficients co). set (W := at_centres 2 sq sq_v dam_break).
  assert (TI : forall c, (2 <= q_h (W c) <= 5)%R /\ q_hu (W c) = 0%R /\ q_hv (W c) = 0%R /\ q_hc (W c) = 0%R) by (intros c; apply dam_still).
  assert (SL : forall c, iscell sq c -> slowed E dt (W c) = W c). { intros d _. destruct (TI d) as (D1 & D2 & D3 & _). assert (P0 : (0 < q_h (W d))%R) by lra; exact (proj1 (rest_slowed E _ dt (W d) (conj P0 (conj D2 (conj D3 eq_refl))))). }
  split; [intros c _; apply TI|].
  assert (SS : forall S T P, slopes sq sq_v [4; 4; 3; 3] 2 (fun c => slowed E dt (W c)) S T P -> slopes sq sq_v [4; 4; 3; 3] 2 W S T P) by (intros S T P HS; exact HS).
  destruct (proj2 (C77_step 1 sq sq_v [4; 4; 3; 3] _ _ _ 2 E dt W RG HD)) as (V & SV).
  { split; [intros c _; destruct (TI c); lra|]. intros S T P HS c F HF. rewrite (flux_same sq sq_v [4; 4; 3; 3] Examples_run3.basin 2 VM _ W SL S T P S T P c F HS (SS S T P HS) (proj1 HF)). apply SS in HS. unfold flux.
    pose proof (outward_measures sq sq_v [4; 4; 3; 3] c F VM HF) as MM. cbv zeta in MM.
    assert (IN : forall c F, has_facet 2 sq c F -> let w := at_facet sq sq_v 2 W S T P c F in (1/2 <= q_h w)%R /\ q_hu w = 0%R /\ q_hv w = 0%R).
    { intros c0 F0 H0 w. split; [unfold w, W; rewrite (dam_depth S T P HS c0 F0 H0); destruct (c0 =? 0), (list_eq_dec Z.eq_dec F0 [0; 2]); lra|]. unfold w, at_facet. cbn [Z.eqb Pos.eqb q_hu q_hv]. split; apply TI. }
    destruct (IN c F HF) as (L1 & L2 & L3).
    assert (SR : exists r, r = match beside sq c F with Some d => at_facet sq sq_v 2 W S T P d F | None => outside sq sq_v [4; 4; 3; 3] Examples_run3.basin W c F end /\ (1/2 <= q_h r)%R /\ q_hu r = 0%R /\ q_hv r = 0%R).
    { destruct (beside sq c F) as [d|] eqn:EB; eexists; (split; [reflexivity|]).
      - destruct (beside_swap 2 sq sq_v [4; 4; 3; 3] VM c d F HF EB) as (Hd & _). exact (IN d F Hd).
      - split; [|apply Examples_run3.still_outside; intros d; split; apply TI]. unfold outside. rewrite EB. cbn [q_h]. destruct (TI c). lra. }
    destruct SR as (r & <- & R1 & R2 & R3). destruct (Examples_run3.still_flux _ r _ _ MM L1 R1 L2 L3 R2 R3) as (X & EX & _). rewrite EX. discriminate. }
  exists V. split; [exact SV|]. split; [destruct SV as (_ & S & T & P & _ & _ & _ & _ & HS & _); exists S, T, P; apply SS; exact HS|].
  intros S T P HS. assert (G : has_facet 2 sq 0 [1; 2] /\ has_facet 2 sq 1 [2; 3]) by (split; apply (facets_iff 2 sq sq_v Properties_geom.sq_wf); try (unfold iscell; change (zlen sq) with 2; lia); vm_compute; tauto).
  destruct G as (G0 & G1). unfold W. rewrite (dam_depth S T P HS 0 _ G0), (dam_depth S T P HS 1 _ G1). split; reflexivity.
Qed.
Print Assumptions C92_second_order_refuted.

(** [C92_dam_break] applies to the channel with walls all around, on one rank and on two, with all the terms *)
Theorem C92_channel : forall SIZE npart0 epart, (SIZE, npart0, epart) = (1, [0; 0; 0; 0; 0; 0], [0; 0; 0; 0]) \/ (SIZE, npart0, epart) = (2, [0; 0; 1; 0; 1; 1], [0; 0; 1; 1]) ->
  forall f32 Dx Dy Mann fc cfl, (0 <= Dx + Dy)%R -> (0 < cfl <= 1)%R ->
  exists st dt V arrays, setup f32 2 SIZE Examples_run3.ch Examples_run3.ch_v Examples_run3.ch_labels npart0 epart = Ok st /\ (0 < dt)%R /\
    (allocated SIZE st arrays wa_h /\ allocated SIZE st arrays wa_hu /\ allocated SIZE st arrays wa_hv /\ allocated SIZE st arrays wa_hc /\ allocated SIZE st arrays wa_Z) /\ (forall c, iscell Examples_run3.ch c -> (2 <= q_h (V c) <= 5)%R) /\
    exists out s, initialise initialisation_SW SIZE st arrays = Ok out /\
      sw_program 1 (Some ((Examples_run3.walls, []), (Examples_run3.walls, []))) 1 (Examples_run3.all_on Dx Dy Mann fc) cfl dt SIZE st (map state_of_water out) = Ok (Some (dt, s)) /\ held SIZE st V s.
Proof.
  intros SIZE npart0 epart HS f32 Dx Dy Mann fc cfl HD HC.
  assert (RG : sw_regular SIZE Examples_run3.ch Examples_run3.ch_v Examples_run3.ch_labels npart0 epart Examples_run3.basin) by (destruct HS as [E|E]; injection E as -> -> ->; apply Examples_run3.C77_channel).
  destruct (C92_dam_break f32 SIZE Examples_run3.ch Examples_run3.ch_v Examples_run3.ch_labels npart0 epart Examples_run3.basin 1 (Examples_run3.all_on Dx Dy Mann fc) cfl RG) as (st & dt & V & ES & DP & SV & HV & RUN); [|lia | exact HC | exact HD | apply Examples_run3.all_on_complete|].
  { intros l. split; intros H; cbn in H; repeat (destruct H as [H|H]; [discriminate|]); exact H. }
  set (zz := fun r : Z => repeat 7%R (Z.to_nat (zlen (dm_loctoglob (domain_of (se_domains st) r))))).
  set (arrays := map (fun r => {| wa_h := zz r; wa_hu := zz r; wa_hv := zz r; wa_hc := zz r; wa_Z := zz r |}) (range SIZE)).
  assert (S1 : 1 <= SIZE) by (destruct HS as [E|E]; injection E as -> _ _; lia).
  assert (A : forall k, (forall r, k (nthZ no_water arrays r) = wa_h (nthZ no_water arrays r)) -> allocated SIZE st arrays k).
  { intros k Hk. split; [unfold arrays; rewrite zlen_map, zlen_range; lia|]. intros r a Hr Ha. rewrite (get_nthZ no_water) in Ha by (unfold arrays; rewrite zlen_map, zlen_range; lia). injection Ha as <-. rewrite Hk. unfold arrays. rewrite (nthZ_map _ 0) by (rewrite zlen_range; lia). rewrite nthZ_range by lia. cbn [wa_h]. unfold zz, zlen. rewrite repeat_length. lia. }
  assert (NE : forall (f : water -> list R), f no_water = [] -> (forall x, f {| wa_h := x; wa_hu := x; wa_hv := x; wa_hc := x; wa_Z := x |} = x) -> forall r, f (nthZ no_water arrays r) = wa_h (nthZ no_water arrays r)).
  { intros f f0 fx r. unfold nthZ. destruct (nth_in_or_default (Z.to_nat r) arrays no_water) as [HI|HI]; [|rewrite HI, f0; reflexivity]. apply in_map_iff in HI as (q & <- & _). rewrite fx. reflexivity. }
  assert (A1 : allocated SIZE st arrays wa_h) by (apply A; reflexivity). assert (A2 : allocated SIZE st arrays wa_hu) by (apply A, NE; reflexivity). assert (A3 : allocated SIZE st arrays wa_hv) by (apply A, NE; reflexivity). assert (A4 : allocated SIZE st arrays wa_hc) by (apply A, NE; reflexivity). assert (A5 : allocated SIZE st arrays wa_Z) by (apply A, NE; reflexivity).
  exists st, dt, V, arrays. split; [exact ES|]. split; [exact DP|]. split; [auto|]. split; [exact HV|]. apply (RUN (Some ((Examples_run3.walls, []), (Examples_run3.walls, []))) arrays dt 1%nat (or_introl eq_refl) A1 A2 A3 A4 A5); [lra | lia].
Qed.
Print Assumptions C92_channel.
