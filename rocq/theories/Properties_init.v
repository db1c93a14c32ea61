(** * Properties_init: the initial conditions, on any number of ranks (C92).  Vocabulary: [Spec_init]. *)
From Coq Require Import String Reals Lra Psatz Permutation Sorted.
From Verif Require Import Py PyLemmas Model_part Spec_part Model_label Model_conn Spec_conn Proofs_conn1 Proofs_conn2 Model_geom Spec_geom Proofs_geom1 Proofs_geom2 Proofs_geom3
  Model_halo Spec_halo Model_interp Spec_interp Spec_lsq Proofs_lsq Model_fvm Spec_fvm Proofs_fvm1 Proofs_fvm2 Model_bc Spec_bc Spec_bc3 Proofs_label Proofs_bc Proofs_bc2 Proofs_bc3 Model_domain Spec_domain
  Model_comm Model_parallel Spec_parallel Proofs_parallel1 Model_run Spec_run Proofs_run1 Proofs_run2 Proofs_run3 Proofs_run4 Proofs_run5 Proofs_run6 Spec_run2 Model_run2 Proofs_run7 Proofs_run8 Proofs_run9 Proofs_run10 Proofs_run11 Proofs_run12 Proofs_run13 Proofs_run14 Proofs_run15 Spec_run3 Proofs_run16 Properties_parallel Properties_run Properties_run2.
From Verif Require Import Model_sw Proofs_sw5 Proofs_sw6 Proofs_sw7 Model_run3 Spec_run4 Proofs_run17 Proofs_run18 Proofs_run19 Proofs_run20 Proofs_run21 Proofs_run22 Proofs_run23 Proofs_run24 Proofs_run26 Proofs_run27 Proofs_run25 Proofs_run28 Proofs_run29 Spec_run5.
From Verif Require Spec_sw Properties_sw Proofs_sw8 Properties_parallel.
From Verif Require Import Properties_run3 Proofs_save Model_init Spec_init Proofs_init.
From Verif Require Examples_run3.
Open Scope Z_scope.

Definition no_fluid : fluid := {| in_ne := []; in_u := []; in_v := []; in_w := []; in_P := [] |}.
Definition no_water : water := {| wa_h := []; wa_hu := []; wa_hv := []; wa_hc := []; wa_Z := [] |}.
Definition no_gas : gas := {| ga_ne := []; ga_ni := []; ga_u := []; ga_v := []; ga_w := []; ga_Ex := []; ga_Ey := []; ga_Ez := []; ga_P := [] |}.
Lemma lengths {A} dim SIZE cells nodes labels epart st (arrays : list A) (d : A) k : represents dim SIZE cells nodes labels epart (se_domains st) -> allocated SIZE st arrays k ->
  forall r, 0 <= r < SIZE -> zlen (k (nthZ d arrays r)) = zlen (dm_center (domain_of (se_domains st) r)).
Proof. intros RP (L & H) r Hr. destruct (pa_sizes _ _ _ _ _ _ _ (pas dim SIZE cells nodes labels epart st RP r Hr)) as (_ & SC & _). rewrite SC. apply (H r); [exact Hr|]. apply get_nthZ. lia. Qed.
Lemma outs {A} dim SIZE cells nodes labels epart st (out : list A) (d : A) (k : A -> list R) f : represents dim SIZE cells nodes labels epart (se_domains st) -> zlen out = SIZE ->
  (forall r, 0 <= r < SIZE -> k (nthZ d out r) = map f (dm_center (domain_of (se_domains st) r))) -> values_of 0%R SIZE (se_domains st) (at_centres dim cells nodes f) (map k out).
Proof.
  intros RP L H. apply (centre_values dim SIZE cells nodes labels epart st RP); [rewrite zlen_map; exact L|]. intros r Hr. rewrite (nthZ_map k d) by lia. apply H. exact Hr.
Qed.

(** C92.  Whatever the arrays contain, on any number of ranks: initialisation_gaussian_2d and _3d give every cell of the mesh the density of the hill at its centre, velocity zero and
    the potential.  The density lies above 1 and up to 6. *)
Theorem C92_gaussian : forall f32 dim SIZE cells nodes labels npart0 epart, valid_mesh dim cells nodes labels -> valid_split dim SIZE cells nodes npart0 epart ->
  exists st, setup f32 dim SIZE cells nodes labels npart0 epart = Ok st /\
    let is f ws := values_of 0%R SIZE (se_domains st) (at_centres dim cells nodes f) ws in
    forall arrays Pinit, allocated SIZE st arrays in_ne -> allocated SIZE st arrays in_u -> allocated SIZE st arrays in_v -> allocated SIZE st arrays in_w -> allocated SIZE st arrays in_P ->
    (exists out, initialise (fun a ce => initialisation_gaussian_2d a ce Pinit) SIZE st arrays = Ok out /\ is density_2d (map in_ne out) /\
      is (fun _ => 0%R) (map in_u out) /\ is (fun _ => 0%R) (map in_v out) /\ is (fun _ => 0%R) (map in_w out) /\ is (slope_from Pinit (1/2)) (map in_P out)) /\
    (exists out, initialise (fun a ce => initialisation_gaussian_3d a ce Pinit) SIZE st arrays = Ok out /\ is density_3d (map in_ne out) /\
      is (fun _ => 0%R) (map in_u out) /\ is (fun _ => 0%R) (map in_v out) /\ is (fun _ => 0%R) (map in_w out) /\ is (slope_from Pinit (1/2)) (map in_P out)).
Proof.
  intros f32 dim SIZE cells nodes labels npart0 epart VM VS. destruct (C68_parallel_setup f32 dim SIZE cells nodes labels npart0 epart VM VS) as (st & E & RP & CS & _). exists st. split; [exact E|].
  intros is arrays Pinit A1 A2 A3 A4 A5. pose proof (fun k A => lengths dim SIZE cells nodes labels epart st arrays no_fluid k RP A) as LN. split.
  - destruct (initialise_ok dim SIZE cells nodes labels epart st RP (fun a ce => initialisation_gaussian_2d a ce Pinit) (fun _ ce => {| in_ne := map density_2d ce; in_u := map zero_at ce; in_v := map zero_at ce; in_w := map zero_at ce; in_P := map (slope_from Pinit (1/2)) ce |}) no_fluid arrays (proj1 A1)) as (out & EO & LO & HO).
    { intros r Hr. apply gaussian_2d_ok; [apply (LN in_ne A1) | apply (LN in_u A2) | apply (LN in_v A3) | apply (LN in_w A4) | apply (LN in_P A5)]; exact Hr. }
    exists out. split; [exact EO|]. unfold is. repeat (split; [apply (outs dim SIZE cells nodes labels epart st out no_fluid); [exact RP | exact LO | intros r Hr; rewrite (HO r Hr); reflexivity]|]). apply (outs dim SIZE cells nodes labels epart st out no_fluid); [exact RP | exact LO | intros r Hr; rewrite (HO r Hr); reflexivity].
  - destruct (initialise_ok dim SIZE cells nodes labels epart st RP (fun a ce => initialisation_gaussian_3d a ce Pinit) (fun _ ce => {| in_ne := map density_3d ce; in_u := map zero_at ce; in_v := map zero_at ce; in_w := map zero_at ce; in_P := map (slope_from Pinit (1/2)) ce |}) no_fluid arrays (proj1 A1)) as (out & EO & LO & HO).
    { intros r Hr. apply gaussian_3d_ok; [apply (LN in_ne A1) | apply (LN in_u A2) | apply (LN in_v A3) | apply (LN in_w A4) | apply (LN in_P A5)]; exact Hr. }
    exists out. split; [exact EO|]. unfold is. repeat (split; [apply (outs dim SIZE cells nodes labels epart st out no_fluid); [exact RP | exact LO | intros r Hr; rewrite (HO r Hr); reflexivity]|]). apply (outs dim SIZE cells nodes labels epart st out no_fluid); [exact RP | exact LO | intros r Hr; rewrite (HO r Hr); reflexivity].
Qed.
Print Assumptions C92_gaussian.

Theorem C92_density : forall p, (1 < density_2d p <= 6)%R /\ (1 < density_3d p <= 6)%R /\ (10 ^ 9 < electrons_2d p <= 10 ^ 9 + 10 ^ 16)%R /\ (10 ^ 12 < electrons_3d p <= 10 ^ 12 + 10 ^ 16)%R.
Proof.
  intros p. assert (Q : (0 < 10 ^ 16)%R) by (apply pow_lt; lra). pose proof (distance2_nonneg (1/5) (1/4) p). pose proof (distance3_nonneg (1/5) (1/4) (9/20) p). pose proof (distance3_nonneg (1/5) (1/4) (1/4) p).
  replace 6%R with (1 + 5)%R by ring. repeat split; apply hill_bounds; try assumption; lra.
Qed.

(** initialisation_SW: the state of the dam break at the centres. *)
Theorem C92_shallow : forall f32 dim SIZE cells nodes labels npart0 epart, valid_mesh dim cells nodes labels -> valid_split dim SIZE cells nodes npart0 epart ->
  exists st, setup f32 dim SIZE cells nodes labels npart0 epart = Ok st /\
    forall arrays, allocated SIZE st arrays wa_h -> allocated SIZE st arrays wa_hu -> allocated SIZE st arrays wa_hv -> allocated SIZE st arrays wa_hc -> allocated SIZE st arrays wa_Z ->
    exists out, initialise initialisation_SW SIZE st arrays = Ok out /\ values_of q5_zero SIZE (se_domains st) (at_centres dim cells nodes dam_break) (map state_of_water out).
Proof.
  intros f32 dim SIZE cells nodes labels npart0 epart VM VS. destruct (C68_parallel_setup f32 dim SIZE cells nodes labels npart0 epart VM VS) as (st & E & RP & CS & _). exists st. split; [exact E|].
  intros arrays A1 A2 A3 A4 A5. pose proof (fun k A => lengths dim SIZE cells nodes labels epart st arrays no_water k RP A) as LN.
  destruct (initialise_ok dim SIZE cells nodes labels epart st RP initialisation_SW (fun _ ce => {| wa_h := map (fun p => q_h (dam_break p)) ce; wa_hu := map zero_at ce; wa_hv := map zero_at ce; wa_hc := map zero_at ce; wa_Z := map zero_at ce |}) no_water arrays (proj1 A1)) as (out & EO & LO & HO).
  { intros r Hr. apply SW_ok; [apply (LN wa_h A1) | apply (LN wa_hu A2) | apply (LN wa_hv A3) | apply (LN wa_hc A4) | apply (LN wa_Z A5)]; exact Hr. }
  exists out. split; [exact EO|]. apply (centre_values dim SIZE cells nodes labels epart st RP); [rewrite zlen_map; exact LO|]. intros r Hr. rewrite (nthZ_map state_of_water no_water) by lia. rewrite (HO r Hr).
  unfold state_of_water, together. cbn [wa_h wa_hu wa_hv wa_hc wa_Z]. rewrite zlen_map. set (ce := dm_center (domain_of (se_domains st) r)). pose proof (zlen_nonneg ce). apply (nthZ_ext q5_zero).
  - rewrite !zlen_map, zlen_range; lia.
  - intros i Hi. rewrite zlen_map, zlen_range in Hi by lia. rewrite (nthZ_map _ 0) by (rewrite zlen_range; lia). rewrite nthZ_range by lia. rewrite !(nthZ_map _ vzero) by lia. reflexivity.
Qed.
Print Assumptions C92_shallow.

(** initialisation_streamer and _3d: as many ions as electrons everywhere. *)
Theorem C92_streamer : forall f32 dim SIZE cells nodes labels npart0 epart, valid_mesh dim cells nodes labels -> valid_split dim SIZE cells nodes npart0 epart ->
  exists st, setup f32 dim SIZE cells nodes labels npart0 epart = Ok st /\
    let is f ws := values_of 0%R SIZE (se_domains st) (at_centres dim cells nodes f) ws in
    forall arrays Pinit, allocated SIZE st arrays ga_ne -> allocated SIZE st arrays ga_ni -> allocated SIZE st arrays ga_u -> allocated SIZE st arrays ga_v -> allocated SIZE st arrays ga_Ex -> allocated SIZE st arrays ga_Ey -> allocated SIZE st arrays ga_P ->
    (exists out, initialise (fun a ce => initialisation_streamer a ce Pinit) SIZE st arrays = Ok out /\ is electrons_2d (map ga_ne out) /\ is electrons_2d (map ga_ni out) /\
      is (fun _ => 0%R) (map ga_u out) /\ is (fun _ => 0%R) (map ga_v out) /\ is (fun _ => 0%R) (map ga_Ex out) /\ is (fun _ => 0%R) (map ga_Ey out) /\ is (slope_from Pinit 1) (map ga_P out)) /\
    (allocated SIZE st arrays ga_w -> allocated SIZE st arrays ga_Ez ->
     exists out, initialise (fun a ce => initialisation_streamer_3d a ce Pinit) SIZE st arrays = Ok out /\ is electrons_3d (map ga_ne out) /\ is electrons_3d (map ga_ni out) /\
      is (fun _ => 0%R) (map ga_u out) /\ is (fun _ => 0%R) (map ga_v out) /\ is (fun _ => 0%R) (map ga_w out) /\ is (fun _ => 0%R) (map ga_Ex out) /\ is (fun _ => 0%R) (map ga_Ey out) /\ is (fun _ => 0%R) (map ga_Ez out) /\ is (slope_from Pinit (1/2)) (map ga_P out)).
Proof.
  intros f32 dim SIZE cells nodes labels npart0 epart VM VS. destruct (C68_parallel_setup f32 dim SIZE cells nodes labels npart0 epart VM VS) as (st & E & RP & CS & _). exists st. split; [exact E|].
  intros is arrays Pinit A1 A2 A3 A4 A5 A6 A7. pose proof (fun k A => lengths dim SIZE cells nodes labels epart st arrays no_gas k RP A) as LN. split.
  - destruct (initialise_ok dim SIZE cells nodes labels epart st RP (fun a ce => initialisation_streamer a ce Pinit) (fun a ce => {| ga_ne := map electrons_2d ce; ga_ni := map electrons_2d ce; ga_u := map zero_at ce; ga_v := map zero_at ce; ga_w := ga_w a; ga_Ex := map zero_at ce; ga_Ey := map zero_at ce; ga_Ez := ga_Ez a; ga_P := map (slope_from Pinit 1) ce |}) no_gas arrays (proj1 A1)) as (out & EO & LO & HO).
    { intros r Hr. apply streamer_ok; [apply (LN ga_ne A1) | apply (LN ga_ni A2) | apply (LN ga_u A3) | apply (LN ga_v A4) | apply (LN ga_Ex A5) | apply (LN ga_Ey A6) | apply (LN ga_P A7)]; exact Hr. }
    exists out. split; [exact EO|]. unfold is. repeat (split; [apply (outs dim SIZE cells nodes labels epart st out no_gas); [exact RP | exact LO | intros r Hr; rewrite (HO r Hr); reflexivity]|]). apply (outs dim SIZE cells nodes labels epart st out no_gas); [exact RP | exact LO | intros r Hr; rewrite (HO r Hr); reflexivity].
  - intros A8 A9. destruct (initialise_ok dim SIZE cells nodes labels epart st RP (fun a ce => initialisation_streamer_3d a ce Pinit) (fun a ce => {| ga_ne := map electrons_3d ce; ga_ni := map electrons_3d ce; ga_u := map zero_at ce; ga_v := map zero_at ce; ga_w := map zero_at ce; ga_Ex := map zero_at ce; ga_Ey := map zero_at ce; ga_Ez := map zero_at ce; ga_P := map (slope_from Pinit (1/2)) ce |}) no_gas arrays (proj1 A1)) as (out & EO & LO & HO).
    { intros r Hr. apply streamer_3d_ok; [apply (LN ga_ne A1) | apply (LN ga_ni A2) | apply (LN ga_u A3) | apply (LN ga_v A4) | apply (LN ga_w A8) | apply (LN ga_Ex A5) | apply (LN ga_Ey A6) | apply (LN ga_Ez A9) | apply (LN ga_P A7)]; exact Hr. }
    exists out. split; [exact EO|]. unfold is. repeat (split; [apply (outs dim SIZE cells nodes labels epart st out no_gas); [exact RP | exact LO | intros r Hr; rewrite (HO r Hr); reflexivity]|]). apply (outs dim SIZE cells nodes labels epart st out no_gas); [exact RP | exact LO | intros r Hr; rewrite (HO r Hr); reflexivity].
Qed.
Print Assumptions C92_streamer.

(** *** The programs that start from them *)
(** first-order transport from the hill: on any number of ranks the same values, all between 1 and 6, if those of the Dirichlet sides are *)
Theorem C92_transport : forall f32 dim SIZE cells nodes labels npart0 epart bc vs U cfl tfinal,
  valid_mesh dim cells nodes labels -> valid_split dim SIZE cells nodes npart0 epart -> bc_valid dim bc vs -> (0 < cfl <= 1)%R -> dirichlet_within 1 6 bc vs ->
  exists st dt n, setup f32 dim SIZE cells nodes labels npart0 epart = Ok st /\ largest_step cells nodes U cfl dt /\
    forall arrays Pinit fuel, allocated SIZE st arrays in_ne -> allocated SIZE st arrays in_u -> allocated SIZE st arrays in_v -> allocated SIZE st arrays in_w -> allocated SIZE st arrays in_P -> (n <= fuel)%nat ->
    exists out hs ws, initialise (fun a ce => initialisation_gaussian_2d a ce Pinit) SIZE st arrays = Ok out /\
      transport fuel bc vs U cfl tfinal SIZE st (map in_ne out) = Ok (Some (INR n * dt, hs)%R) /\ mapM (fun s => cell_of (hb_ne s)) hs = Ok ws /\
      values_of 0%R SIZE (se_domains st) (upwind dim cells nodes labels n bc vs U dt (at_centres dim cells nodes density_2d)) ws /\ forall w x, In w ws -> In x w -> (1 <= x <= 6)%R.
Proof.
  intros f32 dim SIZE cells nodes labels npart0 epart bc vs U cfl tfinal VM VS BV HC DW. destruct (C92_gaussian f32 dim SIZE cells nodes labels npart0 epart VM VS) as (st & E & G).
  destruct (C69_transport f32 dim SIZE cells nodes labels npart0 epart bc vs U cfl tfinal (at_centres dim cells nodes density_2d) VM VS BV (proj1 HC)) as (st1 & dt & n & E1 & _ & LS & _ & _ & T). rewrite E in E1. injection E1 as <-.
  destruct (C69_bounds f32 dim SIZE cells nodes labels npart0 epart bc vs U cfl tfinal (at_centres dim cells nodes density_2d) 1 6 VM VS BV HC) as (st2 & n2 & E2 & B); [intros c _; destruct (C92_density (cell_centre dim nodes (cell cells c))) as (X & _); unfold at_centres; lra | exact DW|]. rewrite E in E2. injection E2 as <-.
  exists st, dt, n. split; [exact E|]. split; [exact LS|]. intros arrays Pinit fuel A1 A2 A3 A4 A5 HF. destruct (G arrays Pinit A1 A2 A3 A4 A5) as ((out & EO & V & _) & _).
  destruct (T _ fuel V HF) as (hs & ws & RT & M & VW). exists out, hs, ws. split; [exact EO|]. split; [exact RT|]. split; [exact M|]. split; [exact VW|].
  destruct (T _ (max fuel n2) V ltac:(lia)) as (hs1 & ws1 & RT1 & M1 & VW1). destruct (B _ (max fuel n2) V ltac:(lia)) as (t2 & hs2 & ws2 & RT2 & M2 & BB). rewrite RT1 in RT2. injection RT2 as _ <-. rewrite M1 in M2. injection M2 as <-.
  destruct VW as (LW & VW). destruct VW1 as (LW1 & VW1). intros w x Hw Hx. apply (BB w x); [|exact Hx]. apply (In_nthZ []) in Hw as (r & Hr & <-). rewrite LW in Hr. replace (nthZ [] ws r) with (nthZ [] ws1 r); [apply nthZ_In; lia|].
  destruct (VW r Hr) as (L & V1). destruct (VW1 r Hr) as (L1 & V2). apply (nthZ_ext 0%R); [lia|]. intros i Hi. rewrite L1 in Hi. rewrite V1, V2 by exact Hi. reflexivity.
Qed.
Print Assumptions C92_transport.
