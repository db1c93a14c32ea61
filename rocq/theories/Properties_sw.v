(** * Properties_sw: C43-C46, C55-C59 (shallow water).
    Vocabulary: [Spec_sw] (physical_flux, roe_speed, celerity, at_rest, lake, ...), [Spec_fvm] (leaves, wf_fvdata, wf_lists). *)
From Coq Require Import Reals Lra Psatz Permutation ZifyBool String.
From Verif Require Import Py PyLemmas Model_part Model_conn Spec_conn Model_geom Spec_geom Model_interp Spec_interp Model_fvm Spec_fvm Proofs_conn1 Proofs_interp1 Proofs_fvm1 Proofs_fvm2 Model_sw Spec_sw
  Proofs_sw2 Proofs_sw3 Proofs_sw4 Proofs_sw5 Proofs_sw6 Proofs_sw7 Proofs_sw8 Proofs_sw9.
Open Scope Z_scope.

Lemma wet_dec w : {wet w} + {~ wet w}.
Proof. apply Rlt_dec. Qed.
Lemma dry_none l r n m g : ~ (wet l /\ wet r) -> srnh_scheme l r n m g = None.
Proof. intros N. destruct (srnh_scheme l r n m g) as [F|] eqn:E; [|reflexivity]. destruct (some_flux _ _ _ _ _ _ E) as (A & B & _). exfalso. apply N. auto. Qed.

(** ** C43.  update_SW is component-wise; friction damps. *)
Theorem C43_update : forall w rez src dis cor wind dt vol, let n := zlen w in
  zlen rez = n -> zlen src = n -> zlen dis = n -> zlen cor = n -> zlen vol = n -> (forall c, 0 <= c < n -> (0 < nthZ 0 vol c)%R) ->
  exists new, update_SW w rez src dis cor wind dt vol = Ok new /\ zlen new = n /\
  forall c r s, 0 <= c < n -> nthZ None rez c = Some r -> nthZ None src c = Some s ->
    let x := nthZ q5_zero w c in let v := nthZ 0%R vol c in
    nthZ None new c = Some
      {| q_h := q_h x + dt * ((q_h r + q_h s) / v); q_hu := q_hu x + dt * ((q_hu r + q_hu s) / v + fst (nthZ (0, 0) cor c) + fst wind);
         q_hv := q_hv x + dt * ((q_hv r + q_hv s) / v + snd (nthZ (0, 0) cor c) + snd wind); q_hc := q_hc x + dt * ((q_hc r + q_hc s - nthZ 0 dis c) / v);
         q_Z := q_Z x + dt * ((q_Z r + q_Z s) / v) |}%R.
Proof.
  intros w rez src dis cor wind dt vol n H1 H2 H3 H4 H5 HV. destruct (update_SW_ok w rez src dis cor wind dt vol H1 H2 H3 H4 H5) as (new & E & Hz & P). exists new. split; [exact E|]. split; [exact Hz|].
  intros c r s Hc Er Es x v. rewrite P by exact Hc. rewrite Er, Es. pose proof (HV c Hc) as V. rewrite update_cell_ok by lra. unfold x, v. apply f_equal. apply q5_ext; cbn [q_h q_hu q_hv q_hc q_Z]; unfold Rdiv; ring.
Qed.
Print Assumptions C43_update.
(** in a wet cell friction multiplies both discharges by one factor in (0, 1] and changes nothing else *)
Theorem C43_friction : forall w eta time c, (0 <= time)%R -> 0 <= c < zlen w -> wet (nthZ q5_zero w c) ->
  let x := nthZ q5_zero w c in
  exists k, (0 < k <= 1)%R /\ nthZ None (term_friction_SW w g981 eta time) c = Some {| q_h := q_h x; q_hu := k * q_hu x; q_hv := k * q_hv x; q_hc := q_hc x; q_Z := q_Z x |}%R /\
  (Rabs (k * q_hu x) <= Rabs (q_hu x))%R /\ (Rabs (k * q_hv x) <= Rabs (q_hv x))%R /\ (0 <= k * q_hu x * q_hu x)%R /\ (0 <= k * q_hv x * q_hv x)%R.
Proof.
  intros w eta time c Ht Hc Hw x. destruct (friction_ok x g981 eta time Hw ltac:(pose proof g981_pos; lra) Ht) as (k & Hk & E). exists k. split; [exact Hk|]. split.
  - unfold term_friction_SW. rewrite (nthZ_map _ q5_zero) by exact Hc. exact E.
  - assert (A : forall y, (Rabs (k * y) <= Rabs y)%R) by (intros y; rewrite Rabs_mult, (Rabs_pos_eq k) by lra; rewrite <- (Rmult_1_l (Rabs y)) at 2; apply Rmult_le_compat_r; [apply Rabs_pos | lra]).
    assert (B : forall y, (0 <= k * y * y)%R) by (intros y; rewrite Rmult_assoc; apply Rmult_le_pos; [lra | apply Rle_0_sqr]).
    split; [apply A|]. split; [apply A|]. split; apply B.
Qed.
Print Assumptions C43_friction.

(** ** C44.  Conservation, consistency, bottom. *)
(** the residual of a cell is minus what leaves it through its inner, halo and boundary faces (not a number exactly if some flux is not), and summed over the cells only the fluxes through halo and
    boundary faces remain, for each of h, hu, hv, hc, Z *)
Theorem C44_conservation : forall order X mesure L A, wf_fvdata 2 X -> wf_lists 2 X L -> wf_swdata X mesure A ->
  let nc := zlen (fv_centerc X) in let flux := sw_flux order X mesure A in
  exists rez, convective_SW order X mesure L A nc = Ok rez /\ zlen rez = nc /\
  (forall c, 0 <= c < nc ->
    (forall F, (forall f, In f (sw_faces L) -> touches_face X c f -> flux f = Some (F f)) -> nthZ None rez c = Some (q5_opp (leaves5 X F c (sw_faces L)))) /\
    ((exists f, In f (sw_faces L) /\ touches_face X c f /\ flux f = None) -> nthZ None rez c = None)) /\
  (forall F, (forall f, In f (sw_faces L) -> flux f = Some (F f)) -> sum5 (fun c => the5 (nthZ None rez c)) (range nc) = q5_opp (sum5 F (ls_halo L ++ ls_boundary L))).
Proof.
  intros order X mesure L A WF WL WA nc flux. destruct (residual_ok order X mesure L A WF WL WA) as (rez & E & (Hz & D)). exists rez. split; [exact E|]. split; [exact Hz|]. split; [exact D|].
  intros F HF. rewrite <- (leaves5_total X L WF WL F). fold nc.
  assert (EQ : forall c, In c (range nc) -> the5 (nthZ None rez c) = q5_opp (leaves5 X F c (sw_faces L))).
  { intros c Hc. apply in_range in Hc. destruct (D c Hc) as (D1 & _). rewrite (D1 F) by (intros f Hf _; apply HF, Hf). reflexivity. }
  unfold sum5 at 1. cbv zeta. unfold q5_opp. unfold sum5. cbn [q_h q_hu q_hv q_hc q_Z].
  f_equal; rewrite <- rsum_map_opp; apply rsum_map_ext; intros c Hc; rewrite (EQ c Hc); reflexivity.
Qed.
Print Assumptions C44_conservation.
(** the numerical flux of two equal wet states is the physical flux, unless the flow is exactly critical *)
Theorem C44_consistency : forall g m n w, (0 < g)%R -> measures n m -> wet w -> ~ critical g w w n m -> srnh_scheme w w n m g = Some (physical_flux g w n).
Proof. intros. apply same_flux; assumption. Qed.
Print Assumptions C44_consistency.
(** consistency without that condition is false: at a critical face the flux is not a number, whatever the states, equal or not *)
Theorem C44_critical_refuted : (forall g m n l r, (0 < g)%R -> measures n m -> wet l -> wet r -> critical g l r n m -> srnh_scheme l r n m g = None) /\
  (exists w n m, measures n m /\ wet w /\ critical g981 w w n m).
Proof.
  split.
  - intros g m n l r Hg Hm Hl Hr C. apply (flux_none g m l r n Hg Hl Hr). apply (critical_sq g m l r n Hg Hl Hr). exact C.
  - exists {| q_h := g981; q_hu := g981 * g981; q_hv := 0; q_hc := 0; q_Z := 0 |}%R, (P3 1 0 0), 1%R. split; [split; cbn; lra|]. split; [unfold wet; cbn; apply g981_pos|].
    pose proof g981_pos. assert (E : roe_speed {| q_h := g981; q_hu := g981 * g981; q_hv := 0; q_hc := 0; q_Z := 0 |} {| q_h := g981; q_hu := g981 * g981; q_hv := 0; q_hc := 0; q_Z := 0 |} (P3 1 0 0) 1 = g981).
    { unfold roe_speed. rewrite !roe_mean_same by exact g981_pos. cbn. field. lra. }
    unfold critical. rewrite E. unfold celerity. cbn [q_h]. replace (g981 * ((g981 + g981) / 2))%R with (g981 * g981)%R by field. rewrite sqrt_square by lra. apply Rabs_pos_eq. lra.
Qed.
Print Assumptions C44_critical_refuted.
(** a whole update: the bottom does not move, and the mass (and tracer) in all cells together changes only by what crosses halo and boundary faces (and by the diffusion term) *)
Theorem C44_balance : forall M refresh facegrad w new, let X := sm_X M in let L := sm_L M in let nc := zlen (fv_centerc X) in
  wf_fvdata 2 X -> wf_lists 2 X L -> zlen (sm_vol M) = nc -> (forall c, 0 <= c < nc -> (0 < nthZ 0%R (sm_vol M) c)%R) ->
  (forall l, sw_c (refresh l) = l) -> wf_swdata X (sm_mesure M) (after_friction M refresh w) -> zlen (facegrad (after_friction M refresh w)) = zlen (fv_cellid X) ->
  update_solution_SW M refresh facegrad w = Ok (Some new) -> (forall c, 0 <= c < nc -> nthZ None new c <> None) ->
  let A := after_friction M refresh w in let F f := the5 (sw_flux (sm_order M) X (sm_mesure M) A f) in
  let total x := rsum (map (fun c => nthZ 0%R (sm_vol M) c * x c)%R (range nc)) in
  (forall c, 0 <= c < nc -> q_Z (the5 (nthZ None new c)) = q_Z (nthZ q5_zero w c)) /\
  total (fun c => q_h (the5 (nthZ None new c))) = (total (fun c => q_h (nthZ q5_zero w c)) - sm_dt M * rsum (map (fun f => q_h (F f)) (ls_halo L ++ ls_boundary L)))%R /\
  (co_Dx (sm_coef M) = 0%R -> co_Dy (sm_coef M) = 0%R ->
   total (fun c => q_hc (the5 (nthZ None new c))) = (total (fun c => q_hc (nthZ q5_zero w c)) - sm_dt M * rsum (map (fun f => q_hc (F f)) (ls_halo L ++ ls_boundary L)))%R).
Proof.
  intros M refresh facegrad w new X L nc WF WL V1 V2 RC WA FG EU HN A F total.
  destruct (step_balance M refresh facegrad WF WL (conj V1 V2) w new RC WA FG EU HN) as (_ & _ & _ & BZ & BH & BC). split; [exact BZ|]. split; [exact BH|]. intros D1 D2. unfold total. etransitivity; [exact BC|]. rewrite D1, D2.
  rewrite (rsum_map_zero (diffusion _ _ _)); [unfold F; rewrite Rplus_0_r; reflexivity|]. intros f _. unfold diffusion, vdot. cbn [px py pz]. ring.
Qed.
Print Assumptions C44_balance.
(** false for periodic boundaries: the scheme never looks at the list of periodic faces, so nothing crosses them *)
Theorem C44_periodic_refuted : forall order X mesure L A n p, convective_SW order X mesure {| ls_inner := ls_inner L; ls_periodic := p; ls_halo := ls_halo L; ls_boundary := ls_boundary L |} A n = convective_SW order X mesure L A n.
Proof. reflexivity. Qed.

(** ** C45.  Lake at rest. *)
(** two wet states at rest with the same surface level: no mass and no tracer crosses the face, the momentum flux is the pressure of the mean depth *)
Theorem C45_lake_flux : forall g m n l r H, (0 < g)%R -> measures n m -> at_rest H l -> at_rest H r ->
  srnh_scheme l r n m g = Some {| q_h := 0; q_hu := g * ((q_h l + q_h r) / 2) ^ 2 / 2 * px n; q_hv := g * ((q_h l + q_h r) / 2) ^ 2 / 2 * py n; q_hc := 0; q_Z := 0 |}%R.
Proof. intros g m n l r H Hg Hm (A1 & A2 & A3 & A4) (B1 & B2 & B3 & B4). apply rest_flux; first [assumption | congruence]. Qed.
Print Assumptions C45_lake_flux.
(** between two still states water flows from the higher to the lower surface, in proportion to the difference *)
Theorem C45_still_water : forall g m n l r, (0 < g)%R -> measures n m -> wet l -> wet r -> q_hu l = 0%R -> q_hv l = 0%R -> q_hu r = 0%R -> q_hv r = 0%R -> (1 / 10 ^ 10 <= celerity g l r)%R ->
  exists F, srnh_scheme l r n m g = Some F /\ q_h F = (celerity g l r * m * ((q_h l + q_Z l) - (q_h r + q_Z r)) / 2)%R.
Proof. intros. apply still_flux; try assumption. replace (1 / 10 ^ 10)%R with (1 / 10000000000)%R in * by (cbn; field). assumption. Qed.
Print Assumptions C45_still_water.
(** the source of every cell equals what leaves it, so that source and residual cancel *)
Theorem C45_lake_source : forall X mesure L C A H, wf_fvdata 2 X -> wf_lists 2 X L -> wf_swdata X mesure A -> wf_swcells X L C -> lake H L A ->
  (forall f, In f (sw_faces L) -> measures (nthZ vzero (fv_normal X) f) (nthZ 0%R mesure f)) ->
  exists rez src, convective_SW 1 X mesure L A (zlen (fv_centerc X)) = Ok rez /\ term_source_SW X C A = Ok src /\
  forall c, 0 <= c < zlen (fv_centerc X) -> exists r s, nthZ None rez c = Some r /\ nthZ None src c = Some s /\ q_h r = 0%R /\ q_hc r = 0%R /\ q5_add r s = q5_zero.
Proof.
  intros X mesure L C A H WF WL WA WC LK WM. destruct (residual_ok 1 X mesure L A WF WL WA) as (rez & E1 & (Hz & D)). destruct (source_lake X mesure L C A H WF WL WA WC LK) as (src & E2 & _ & PS).
  exists rez, src. split; [exact E1|]. split; [exact E2|]. intros c Hc. destruct (D c Hc) as (D1 & _). rewrite (D1 (Frest X A)) by (intros f Hf _; apply (flux_rest X mesure L A H WF WL WA LK WM f Hf)). rewrite PS by exact Hc.
  eexists. eexists. split; [reflexivity|]. split; [reflexivity|].
  assert (Z0 : forall l, rsum (map (leaves X (fun _ => 0%R) c) l) = 0%R) by (intros l; apply rsum_map_zero; intros f _; unfold leaves; destruct (cell0 X f =? c), ((fv_label X f =? 0) && (cell1 X f =? c)); ring).
  split; [unfold q5_opp, leaves5; cbn [q_h Frest]; rewrite Z0; ring|]. split; [unfold q5_opp, leaves5; cbn [q_hc Frest]; rewrite Z0; ring|].
  unfold q5_add, q5_opp, q5_zero. cbn [q_h q_hu q_hv q_hc q_Z]. f_equal; ring.
Qed.
Print Assumptions C45_lake_source.
(** a whole first-order update (friction, fluxes, source, Coriolis) leaves depth, bottom and zero discharge as they are *)
Theorem C45_lake_step : forall M refresh facegrad H w, let X := sm_X M in let L := sm_L M in let nc := zlen (fv_centerc X) in
  wf_fvdata 2 X -> wf_lists 2 X L -> zlen (sm_vol M) = nc -> (forall c, 0 <= c < nc -> (0 < nthZ 0%R (sm_vol M) c)%R) ->
  all_terms M -> sm_order M = 1 -> wf_swcells X L (sm_cells M) -> (forall f, In f (sw_faces L) -> measures (nthZ vzero (fv_normal X) f) (nthZ 0%R (sm_mesure M) f)) ->
  (forall x, In x w -> at_rest H x) -> sw_c (refresh w) = w -> lake H L (refresh w) -> wf_swdata X (sm_mesure M) (refresh w) -> zlen (facegrad (refresh w)) = zlen (fv_cellid X) ->
  exists new, update_solution_SW M refresh facegrad w = Ok (Some new) /\ zlen new = zlen w /\
  forall c, 0 <= c < zlen w -> exists x, nthZ None new c = Some x /\ q_h x = q_h (nthZ q5_zero w c) /\ q_hu x = 0%R /\ q_hv x = 0%R /\ q_Z x = q_Z (nthZ q5_zero w c).
Proof. intros M refresh facegrad H w X L nc WF WL V1 V2 HT Ho WC WM HR EA LK WA FG. exact (lake_step M refresh facegrad WF WL (conj V1 V2) H w HT Ho WC WM HR EA LK WA FG). Qed.
Print Assumptions C45_lake_step.
(** over a flat bottom the source term should vanish; it does not, as soon as the depth varies (here: a cell of depth 5 next to one of depth 2, the dam break of initialisation_SW) *)
Theorem C45_flat_bottom_refuted : exists w G b f0 f1 f2 sx sy, q_Z w = 0%R /\ (snd (fst f0) = 0 /\ snd (fst f1) = 0 /\ snd (fst f2) = 0)%R /\
  source_cell w G b f0 f1 f2 = Some (sx, sy) /\ (sx = g981 * 15 / 8)%R.
Proof.
  exists {| q_h := 5; q_hu := 0; q_hv := 0; q_hc := 0; q_Z := 0 |}%R, vzero, vzero, (2, 0, P3 1 0 0)%R, (5, 0, P3 0 1 0)%R, (5, 0, P3 (-1) (-1) 0)%R. do 2 eexists.
  split; [reflexivity|]. split; [auto|]. unfold source_cell. cbv zeta. cbn [px py pz q_h q_Z vzero]. unfold odiv. destruct (Req_EM_T _ 0) as [E|_]; [exfalso; lra|]. split; [reflexivity|]. field.
Qed.
Print Assumptions C45_flat_bottom_refuted.

(** ** C46.  The time step. *)
Theorem C46_time_step : forall w cfl normal mesure volume faceid Dxx Dyy, wf_sw_timestep w normal mesure volume faceid -> (0 < cfl)%R -> (0 <= Dxx + Dyy)%R ->
  let ws := sw_wave_speed w normal mesure volume faceid Dxx Dyy in
  exists dt, time_step_SW w cfl normal mesure volume faceid Dxx Dyy = Ok (Some dt) /\ (0 < dt <= 1000000)%R /\
  (forall i, 0 <= i < zlen faceid -> (0 < ws i)%R /\ (dt <= cfl * nthZ 0 volume i / ws i)%R) /\
  (dt = 1000000%R \/ exists i, 0 <= i < zlen faceid /\ dt = (cfl * nthZ 0 volume i / ws i)%R).
Proof.
  intros w cfl normal mesure volume faceid Dxx Dyy WT Hc HD ws. destruct (sw_dt_ok w normal mesure volume faceid Dxx Dyy WT HD cfl Hc) as (dt & E & B & F & M). exists dt. split; [exact E|]. split; [exact B|]. split; [|exact M].
  intros i Hi. split; [apply (sw_ws_pos w normal mesure volume faceid Dxx Dyy WT HD i Hi) | apply F, Hi].
Qed.
Print Assumptions C46_time_step.

(** ** C55.  Swapping the sides and reversing the normal negates the flux. *)
Theorem C55_antisymmetric : forall g m n n' l r, (0 < g)%R -> measures n m -> px n' = (- px n)%R -> py n' = (- py n)%R -> srnh_scheme r l n' m g = oopp5 (srnh_scheme l r n m g).
Proof.
  intros g m n n' l r Hg Hm E1 E2. destruct (wet_dec l) as [Hl|Nl]; [destruct (wet_dec r) as [Hr|Nr]|].
  - apply swap_flux; assumption.
  - rewrite !dry_none by tauto. reflexivity.
  - rewrite !dry_none by tauto. reflexivity.
Qed.
Print Assumptions C55_antisymmetric.
(** so two ranks that see each other's cell beyond a cut face compute opposite fluxes through it *)
Theorem C55_cut_faces : forall order X mesure A f X' mesure' A' f', measures (nthZ vzero (fv_normal X) f) (nthZ 0%R mesure f) ->
  px (nthZ vzero (fv_normal X') f') = (- px (nthZ vzero (fv_normal X) f))%R -> py (nthZ vzero (fv_normal X') f') = (- py (nthZ vzero (fv_normal X) f))%R -> nthZ 0%R mesure' f' = nthZ 0%R mesure f ->
  face_left order X' A' f' = face_right order X A f -> face_right order X' A' f' = face_left order X A f ->
  sw_flux order X' mesure' A' f' = oopp5 (sw_flux order X mesure A f).
Proof. intros order X mesure A f X' mesure' A' f' Hm N1 N2 Em E1 E2. unfold sw_flux. rewrite E1, E2, Em. apply C55_antisymmetric; [apply g981_pos | exact Hm | exact N1 | exact N2]. Qed.
Print Assumptions C55_cut_faces.

(** ** C56.  The flux does not depend on the orientation of the axes. *)
Theorem C56_rotation : forall g m n co si l r, (0 < g)%R -> measures n m -> (co ^ 2 + si ^ 2 = 1)%R ->
  srnh_scheme (turn5 co si l) (turn5 co si r) (turn_pt co si n) m g = option_map (turn5 co si) (srnh_scheme l r n m g).
Proof.
  intros g m n co si l r Hg Hm H1. destruct (wet_dec l) as [Hl|Nl]; [destruct (wet_dec r) as [Hr|Nr]|].
  - apply turn_flux; assumption.
  - rewrite !dry_none by (change (wet (turn5 co si r)) with (wet r); change (wet (turn5 co si l)) with (wet l); tauto). reflexivity.
  - rewrite !dry_none by (change (wet (turn5 co si r)) with (wet r); change (wet (turn5 co si l)) with (wet l); tauto). reflexivity.
Qed.
Print Assumptions C56_rotation.
(** nor on the level from which the bottom is measured *)
Theorem C56_datum : forall g m n l r z, let up w := {| q_h := q_h w; q_hu := q_hu w; q_hv := q_hv w; q_hc := q_hc w; q_Z := q_Z w + z |}%R in srnh_scheme (up l) (up r) n m g = srnh_scheme l r n m g.
Proof.
  intros g m n l r z up. destruct (wet_dec l) as [Hl|Nl]; [destruct (wet_dec r) as [Hr|Nr]|].
  - apply datum_flux; try assumption; cbn; auto; ring.
  - rewrite !dry_none by (change (wet (up r)) with (wet r); change (wet (up l)) with (wet l); tauto). reflexivity.
  - rewrite !dry_none by (change (wet (up r)) with (wet r); change (wet (up l)) with (wet l); tauto). reflexivity.
Qed.
Print Assumptions C56_datum.

(** ** C57.  Supercritical flow over a flat bottom: the flux is the physical flux of the upstream state. *)
Theorem C57_supercritical : forall g m n l r, (0 < g)%R -> measures n m -> wet l -> wet r -> q_Z l = q_Z r ->
  ((roe_speed l r n m - celerity g l r >= 1 / 10 ^ 10)%R -> srnh_scheme l r n m g = Some (physical_flux g l n)) /\
  ((- roe_speed l r n m - celerity g l r >= 1 / 10 ^ 10)%R -> srnh_scheme l r n m g = Some (physical_flux g r n)).
Proof.
  intros g m n l r Hg Hm Hl Hr EZ. replace (1 / 10 ^ 10)%R with (1 / 10000000000)%R by (cbn; field). split; intros HS; [apply super_flux; assumption|].
  set (n' := P3 (- px n) (- py n) 0).
  assert (Hm' : measures n' m). { destruct Hm as (M0 & M2). split; [exact M0|]. unfold n'. cbn [px py]. rewrite M2. ring. }
  assert (E := C55_antisymmetric g m n' n r l Hg Hm' ltac:(cbn; ring) ltac:(cbn; ring)). rewrite E.
  rewrite (super_flux g m n' Hg Hm' r l Hr Hl (eq_sym EZ)).
  - cbn [oopp5]. f_equal. unfold physical_flux, discharge, q5_opp. cbn [q_h q_hu q_hv q_hc q_Z px py n']. unfold wet in Hr. f_equal; field; lra.
  - replace (roe_speed r l n' m) with (- roe_speed l r n m)%R; [rewrite (celerity_sym g r l); exact HS|].
    unfold roe_speed. cbn [px py n']. rewrite (roe_mean_sym r l (q_hu r)), (roe_mean_sym r l (q_hv r)). destruct Hm. field. lra.
Qed.
Print Assumptions C57_supercritical.

(** ** C58.  Walls let no water through; a basin closed by walls keeps its water and its tracer. *)
Theorem C58_wall : forall g m n l r F, (0 < g)%R -> measures n m -> wall_ghost l r n -> srnh_scheme l r n m g = Some F -> q_h F = 0%R /\ q_hc F = 0%R /\ exists p, q_hu F = (p * px n)%R /\ q_hv F = (p * py n)%R.
Proof. intros g m n l r F Hg Hm (E1 & E2 & E3) EF. destruct (some_flux _ _ _ _ _ _ EF) as (Hl & _ & _). apply (wall_flux g m n Hg Hm l r F Hl E1 E2 E3 EF). Qed.
Print Assumptions C58_wall.
(** a ghost with reversed velocity (nonslip) or mirrored velocity (slip) is a wall *)
Theorem C58_wall_ghosts : forall w n m, measures n m -> wall_ghost w (reversed w) n /\ wall_ghost w (mirrored w n m) n.
Proof.
  intros w n m (M0 & M2). unfold wall_ghost, reversed, mirrored, discharge. cbn [q_h q_hu q_hv q_Z]. split.
  - split; [reflexivity|]. split; [reflexivity | ring].
  - split; [reflexivity|]. split; [reflexivity|].
    transitivity (q_hu w * px n + q_hv w * py n - 2 * (q_hu w * px n + q_hv w * py n) * (px n ^ 2 + py n ^ 2) / m ^ 2)%R; [field; lra|]. rewrite <- M2. field. lra.
Qed.
Print Assumptions C58_wall_ghosts.
Theorem C58_closed_basin : forall M refresh facegrad w new, let X := sm_X M in let L := sm_L M in let nc := zlen (fv_centerc X) in
  wf_fvdata 2 X -> wf_lists 2 X L -> zlen (sm_vol M) = nc -> (forall c, 0 <= c < nc -> (0 < nthZ 0%R (sm_vol M) c)%R) ->
  (forall f, In f (sw_faces L) -> measures (nthZ vzero (fv_normal X) f) (nthZ 0%R (sm_mesure M) f)) ->
  (forall l, sw_c (refresh l) = l) -> wf_swdata X (sm_mesure M) (after_friction M refresh w) -> zlen (facegrad (after_friction M refresh w)) = zlen (fv_cellid X) ->
  let A := after_friction M refresh w in
  ls_halo L = [] -> (forall f, In f (ls_boundary L) -> wall_ghost (face_left (sm_order M) X A f) (nthZ q5_zero (sw_ghost A) f) (nthZ vzero (fv_normal X) f)) ->
  update_solution_SW M refresh facegrad w = Ok (Some new) -> (forall c, 0 <= c < nc -> nthZ None new c <> None) ->
  let total x := rsum (map (fun c => nthZ 0%R (sm_vol M) c * x c)%R (range nc)) in
  total (fun c => q_h (the5 (nthZ None new c))) = total (fun c => q_h (nthZ q5_zero w c)) /\
  (co_Dx (sm_coef M) = 0%R -> co_Dy (sm_coef M) = 0%R -> total (fun c => q_hc (the5 (nthZ None new c))) = total (fun c => q_hc (nthZ q5_zero w c))).
Proof.
  intros M refresh facegrad w new X L nc WF WL V1 V2 WM RC WA FG A HH HW EU HN total.
  destruct (step_balance M refresh facegrad WF WL (conj V1 V2) w new RC WA FG EU HN) as (_ & _ & SF & _).
  destruct (C44_balance M refresh facegrad w new WF WL V1 V2 RC WA FG EU HN) as (_ & BH & BC). cbv zeta in BH, BC. fold A X L nc in BH, BC, SF. rewrite HH in BH, BC. cbn [app] in BH, BC.
  assert (Z : forall f, In f (ls_boundary L) -> q_h (the5 (sw_flux (sm_order M) X (sm_mesure M) A f)) = 0%R /\ q_hc (the5 (sw_flux (sm_order M) X (sm_mesure M) A f)) = 0%R).
  { intros f Hf. assert (Hf' : In f (sw_faces L)) by (unfold sw_faces; rewrite !in_app_iff; auto). specialize (SF f Hf'). specialize (HW f Hf).
    destruct WL as (_ & _ & _ & W4). destruct (W4 f Hf) as (_ & Lb). rewrite SF. cbn [the5]. unfold sw_flux in SF at 1. unfold face_right in SF at 1. replace (fv_label X f =? 0) with false in SF by lia. replace (fv_label X f =? 10) with false in SF by lia.
    destruct (C58_wall _ _ _ _ _ _ g981_pos (WM f Hf') HW SF) as (Z1 & Z2 & _). split; assumption. }
  split.
  - unfold total. rewrite BH. rewrite (rsum_map_zero (fun f => q_h _)) by (intros f Hf; apply Z, Hf). ring.
  - intros D1 D2. unfold total. rewrite (BC D1 D2). rewrite (rsum_map_zero (fun f => q_hc _)) by (intros f Hf; apply Z, Hf). ring.
Qed.
Print Assumptions C58_closed_basin.

(** ** C59.  A uniform tracer concentration stays uniform across every face: the tracer flux is the concentration times the mass flux. *)
Theorem C59_uniform_concentration : forall g m n l r k F, (0 < g)%R -> measures n m -> q_hc l = (k * q_h l)%R -> q_hc r = (k * q_h r)%R -> srnh_scheme l r n m g = Some F -> q_hc F = (k * q_h F)%R.
Proof. intros g m n l r k F Hg Hm E1 E2 EF. destruct (some_flux _ _ _ _ _ _ EF) as (Hl & Hr & _). apply (tracer_flux g m n Hg Hm l r k F Hl Hr E1 E2 EF). Qed.
Print Assumptions C59_uniform_concentration.

(** ** C60.  The settings of a model. *)
(** the constructor succeeds exactly if every coefficient of a requested term is given *)
Theorem C60_settings_partial : forall terms d, let ts := match terms with None => ["source"; "dissipation"; "coriolis"; "friction"; "convective"]%string | Some t => (t ++ ["convective"]%string)%list end in
  (forall co, sw_init terms (Some d) = Ok co ->
    co_terms co = ts /\
    (In "dissipation"%string ts -> param d "Dx" = Some (co_Dx co) /\ param d "Dy" = Some (co_Dy co)) /\ (~ In "dissipation"%string ts -> co_Dx co = 0%R /\ co_Dy co = 0%R) /\
    (In "friction"%string ts -> param d "Manning" = Some (co_Mann co)) /\ (~ In "friction"%string ts -> co_Mann co = 0%R) /\
    (In "coriolis"%string ts -> param d "CoriolisForce" <> None) /\ (~ In "coriolis"%string ts -> co_fc co = 0%R)) /\
  ((In "dissipation"%string ts -> param d "Dx" <> None /\ param d "Dy" <> None) -> (In "friction"%string ts -> param d "Manning" <> None) ->
   (In "coriolis"%string ts -> param d "CoriolisForce" <> None /\ param d "Manning" <> None) -> exists co, sw_init terms (Some d) = Ok co).
Proof.
  intros terms d ts. assert (HT : forall t, has_term t ts = true <-> In t ts).
  { intros t. unfold has_term. rewrite existsb_exists. split; [intros (x & Hx & E); apply String.eqb_eq in E; subst; exact Hx | intros H; exists t; split; [exact H | apply String.eqb_refl]]. }
  unfold sw_init. fold ts.
  destruct (has_term "dissipation" ts) eqn:ED, (has_term "friction" ts) eqn:EF, (has_term "coriolis" ts) eqn:EC;
  destruct (param d "Dx") as [dx|] eqn:P1, (param d "Dy") as [dy|] eqn:P2, (param d "Manning") as [mn|] eqn:P3, (param d "CoriolisForce") as [cf|] eqn:P4; cbn [bind fst snd];
  (split; [intros co; try discriminate; intros [= <-]; cbn [co_terms co_Dx co_Dy co_Mann co_fc]; rewrite <- !HT, ?ED, ?EF, ?EC;
           repeat match goal with |- _ /\ _ => split end; intros; try discriminate; try congruence; try (split; congruence); try reflexivity
         | rewrite <- !HT, ?ED, ?EF, ?EC; intros H1 H2 H3; try (exfalso; first [apply (proj1 (H1 eq_refl)); reflexivity | apply (proj2 (H1 eq_refl)); reflexivity | apply (H2 eq_refl); reflexivity | apply (proj1 (H3 eq_refl)); reflexivity | apply (proj2 (H3 eq_refl)); reflexivity]; fail); eexists; reflexivity]).
Qed.
Print Assumptions C60_settings_partial.
