(** * Properties_run: an explicit transport computation on any number of ranks (C69). *)
From Coq Require Import Reals Lra Permutation Sorted.
From Verif Require Import Py PyLemmas Model_part Spec_part Model_label Model_conn Spec_conn Model_geom Spec_geom Proofs_geom1 Model_interp Spec_interp Model_fvm Spec_fvm Proofs_fvm1 Proofs_fvm2 Model_bc Spec_bc
  Model_domain Spec_domain Model_parallel Spec_parallel Properties_geom Properties_parallel Model_comm Model_run Spec_run Proofs_run1 Proofs_run3 Proofs_run5 Proofs_run6.
Open Scope Z_scope.

(** C69.  The program runs, makes n steps of the largest length dt that the CFL condition allows on the whole mesh (n: the first number of steps that
    reaches tfinal), and then every rank holds, on its cells, the values of the first-order upwind scheme on the whole mesh. *)
Theorem C69_transport : forall f32 dim SIZE cells nodes labels npart0 epart bc vs U cfl tfinal X,
  valid_mesh dim cells nodes labels -> valid_split dim SIZE cells nodes npart0 epart -> bc_valid dim bc vs -> (0 < cfl)%R ->
  exists st dt n, setup f32 dim SIZE cells nodes labels npart0 epart = Ok st /\ (0 < dt)%R /\ largest_step cells nodes U cfl dt /\
    (tfinal <= INR n * dt)%R /\ (forall m, (m < n)%nat -> (INR m * dt < tfinal)%R) /\
    forall w0 fuel, values_of 0%R SIZE (se_domains st) X w0 -> (n <= fuel)%nat ->
    exists hs ws, transport fuel bc vs U cfl tfinal SIZE st w0 = Ok (Some (INR n * dt, hs)%R) /\
      mapM (fun s => cell_of (hb_ne s)) hs = Ok ws /\ values_of 0%R SIZE (se_domains st) (upwind dim cells nodes labels n bc vs U dt X) ws.
Proof.
  intros f32 dim SIZE cells nodes labels npart0 epart bc vs U cfl tfinal X VM VS BV HC. destruct (C68_parallel_setup f32 dim SIZE cells nodes labels npart0 epart VM VS) as (st & E & RP & CS & HX).
  set (W := map (fun r => map (fun c => X (gcell (domain_of (se_domains st) r) c)) (range (zlen (dm_loctoglob (domain_of (se_domains st) r))))) (range SIZE)). pose proof (vs_size _ _ _ _ _ _ VS) as SP.
  assert (HW : values_of 0%R SIZE (se_domains st) X W).
  { split; [unfold W; rewrite zlen_map, zlen_range; lia|]. intros r Hr. unfold W. rewrite (nthZ_map _ 0) by (rewrite zlen_range; lia). rewrite nthZ_range by lia. pose proof (zlen_nonneg (dm_loctoglob (domain_of (se_domains st) r))). split; [rewrite zlen_map, zlen_range; lia|].
    intros c Hc. unfold iscell_of in Hc. rewrite (nthZ_map _ 0) by (rewrite zlen_range; lia). rewrite nthZ_range by lia. reflexivity. }
  destruct (transport_runs dim SIZE cells nodes labels npart0 epart st VM VS RP CS HX bc vs U cfl BV HC X W tfinal HW) as (dt & n & PD & LS & T1 & T2 & _).
  exists st, dt, n. split; [exact E|]. split; [exact PD|]. split; [exact LS|]. split; [exact T1|]. split; [exact T2|]. intros w0 fuel HV Hf.
  destruct (transport_runs dim SIZE cells nodes labels npart0 epart st VM VS RP CS HX bc vs U cfl BV HC X w0 tfinal HV) as (dt' & n' & PD' & LS' & T1' & T2' & R). pose proof (largest_unique _ _ _ _ _ _ LS' LS) as ->.
  assert (n' = n). { destruct (Nat.lt_trichotomy n' n) as [H|[H|H]]; [|exact H|]; exfalso; [pose proof (T2 n' H) | pose proof (T2' n H)]; lra. } subst n'. exact (R fuel Hf).
Qed.
Print Assumptions C69_transport.

(** The result does not depend on the number of ranks or on the distribution of the cells. *)
Theorem C69_same_result : forall f32 dim cells nodes labels bc vs U cfl tfinal X SIZE npart0 epart SIZE' npart0' epart',
  valid_mesh dim cells nodes labels -> valid_split dim SIZE cells nodes npart0 epart -> valid_split dim SIZE' cells nodes npart0' epart' -> bc_valid dim bc vs -> (0 < cfl)%R ->
  exists st st' n time Y, setup f32 dim SIZE cells nodes labels npart0 epart = Ok st /\ setup f32 dim SIZE' cells nodes labels npart0' epart' = Ok st' /\
    forall w0 w0' fuel, values_of 0%R SIZE (se_domains st) X w0 -> values_of 0%R SIZE' (se_domains st') X w0' -> (n <= fuel)%nat ->
    exists hs ws hs' ws', transport fuel bc vs U cfl tfinal SIZE st w0 = Ok (Some (time, hs)) /\ transport fuel bc vs U cfl tfinal SIZE' st' w0' = Ok (Some (time, hs')) /\
      mapM (fun s => cell_of (hb_ne s)) hs = Ok ws /\ mapM (fun s => cell_of (hb_ne s)) hs' = Ok ws' /\
      values_of 0%R SIZE (se_domains st) Y ws /\ values_of 0%R SIZE' (se_domains st') Y ws'.
Proof.
  intros f32 dim cells nodes labels bc vs U cfl tfinal X SIZE npart0 epart SIZE' npart0' epart' VM VS VS' BV HC.
  destruct (C69_transport f32 dim SIZE cells nodes labels npart0 epart bc vs U cfl tfinal X VM VS BV HC) as (st & dt & n & E & PD & LS & T1 & T2 & R).
  destruct (C69_transport f32 dim SIZE' cells nodes labels npart0' epart' bc vs U cfl tfinal X VM VS' BV HC) as (st' & dt' & n' & E' & PD' & LS' & T1' & T2' & R'). pose proof (largest_unique _ _ _ _ _ _ LS' LS) as ->.
  assert (n' = n). { destruct (Nat.lt_trichotomy n' n) as [H|[H|H]]; [|exact H|]; exfalso; [pose proof (T2 n' H) | pose proof (T2' n H)]; lra. } subst n'.
  exists st, st', n, (INR n * dt)%R, (upwind dim cells nodes labels n bc vs U dt X). split; [exact E|]. split; [exact E'|]. intros w0 w0' fuel H H' Hf. destruct (R w0 fuel H Hf) as (hs & ws & A & B & C). destruct (R' w0' fuel H' Hf) as (hs' & ws' & A' & B' & C').
  exists hs, ws, hs', ws'. split; [exact A|]. split; [exact A'|]. split; [exact B|]. split; [exact B'|]. split; assumption.
Qed.
Print Assumptions C69_same_result.

(** every cell of the mesh is a cell of one rank of the set-up: facts about cells *)
Lemma cells_closed dim SIZE cells nodes labels npart0 epart U : valid_mesh dim cells nodes labels -> valid_split dim SIZE cells nodes npart0 epart -> forall c, iscell cells c ->
  rsum (map (fun F => vdot U (outward cells nodes c F)) (facets (cell cells c))) = 0%R /\ (0 < measure_of cells nodes c)%R.
Proof.
  intros VM VS c Hc. destruct (C68_parallel_setup (fun x => x) dim SIZE cells nodes labels npart0 epart VM VS) as (st & E & RP & CS & HX). destruct (vs_owners _ _ _ _ _ _ VS) as (_ & OW). specialize (OW c Hc).
  pose proof (rp_part _ _ _ _ _ _ _ RP _ OW) as PA. destruct (gcell_onto dim cells nodes labels epart _ _ PA c Hc eq_refl) as (a & Ha & Ea). rewrite <- Ea. split; [exact (cell_closed dim cells nodes labels epart _ _ U a VM PA (CS _ OW) Ha)|].
  destruct (pa_cell _ _ _ _ _ _ _ PA a Ha) as (_ & _ & EV & PV). unfold measure_of. rewrite <- EV. exact PV.
Qed.
(** With cfl <= 1 the values stay between the bounds of the initial and the dirichlet values. *)
Theorem C69_bounds : forall f32 dim SIZE cells nodes labels npart0 epart bc vs U cfl tfinal X lo hi,
  valid_mesh dim cells nodes labels -> valid_split dim SIZE cells nodes npart0 epart -> bc_valid dim bc vs -> (0 < cfl <= 1)%R ->
  (forall c, iscell cells c -> (lo <= X c <= hi)%R) -> dirichlet_within lo hi bc vs ->
  exists st n, setup f32 dim SIZE cells nodes labels npart0 epart = Ok st /\
    forall w0 fuel, values_of 0%R SIZE (se_domains st) X w0 -> (n <= fuel)%nat ->
    exists time hs ws, transport fuel bc vs U cfl tfinal SIZE st w0 = Ok (Some (time, hs)) /\ mapM (fun s => cell_of (hb_ne s)) hs = Ok ws /\ forall w x, In w ws -> In x w -> (lo <= x <= hi)%R.
Proof.
  intros f32 dim SIZE cells nodes labels npart0 epart bc vs U cfl tfinal X lo hi VM VS BV HC HB HD. pose proof (C68_parallel_setup f32 dim SIZE cells nodes labels npart0 epart VM VS) as (st' & E' & RP & _).
  destruct (C69_transport f32 dim SIZE cells nodes labels npart0 epart bc vs U cfl tfinal X VM VS BV ltac:(lra)) as (st & dt & n & E & PD & LS & _ & _ & R). rewrite E in E'. injection E' as <-. exists st, n. split; [exact E|]. intros w0 fuel HV Hf.
  destruct (R w0 fuel HV Hf) as (hs & ws & A & B & LW & C). exists (INR n * dt)%R, hs, ws. split; [exact A|]. split; [exact B|]. intros w x Hw Hx.
  destruct (In_nthZ [] _ _ Hw) as (r & Hr & <-). rewrite LW in Hr. destruct (C r Hr) as (LC & V). destruct (In_nthZ 0%R _ _ Hx) as (c & Hc & <-). rewrite LC in Hc. rewrite V by exact Hc.
  apply (run_within dim cells nodes labels bc vs U cfl dt lo hi); [intros a Ha; apply (cells_closed dim SIZE cells nodes labels npart0 epart U VM VS a Ha) | intros a Ha; apply (cells_closed dim SIZE cells nodes labels npart0 epart U VM VS a Ha) | exact HD | lra | lra | exact (proj1 LS) | exact HB |].
  exact (proj1 (gcell_owned dim cells nodes labels epart r _ (rp_part _ _ _ _ _ _ _ RP r Hr) c Hc)).
Qed.
Print Assumptions C69_bounds.

(** One step changes the sum of volume times value over the mesh by what crosses the boundary of the mesh; and this sum is what the ranks hold together. *)
Definition mass (D : domain) (w : list R) : R := rsum (map (fun c => nthZ 0%R (dm_volume D) c * nthZ 0%R w c)%R (range (zlen (dm_loctoglob D)))).
Lemma owner_sum SIZE epart l (g : Z -> R) : (forall c, In c l -> 0 <= owner epart c < SIZE) -> rsum (map (fun r => rsum (map g (filter (fun c => owner epart c =? r) l))) (range SIZE)) = rsum (map g l).
Proof.
  induction l as [|c l IH]; intros H; [apply rsum_map_zero; reflexivity|]. cbn [map]. rewrite rsum_cons, <- (IH (fun x Hx => H x (or_intror Hx))). rewrite <- (rsum_delta SIZE (owner epart c) (g c) (H c (or_introl eq_refl))) at 1. rewrite <- rsum_map_add. apply rsum_map_ext. intros r _. cbn [filter].
  destruct (owner epart c =? r); cbn [map]; [rewrite rsum_cons; reflexivity | ring].
Qed.
Theorem C69_conservation : forall f32 dim SIZE cells nodes labels npart0 epart bc vs U dt X,
  valid_mesh dim cells nodes labels -> valid_split dim SIZE cells nodes npart0 epart ->
  rsum (map (fun c => measure_of cells nodes c * upwind_step dim cells nodes labels bc vs U dt X c)%R (range (zlen cells))) =
    (rsum (map (fun c => measure_of cells nodes c * X c) (range (zlen cells))) - dt * rsum (map (fun p => leaving dim cells nodes labels bc vs U X (fst p) (snd p)) (boundary_facets cells)))%R /\
  exists st, setup f32 dim SIZE cells nodes labels npart0 epart = Ok st /\
    forall Y ws, values_of 0%R SIZE (se_domains st) Y ws ->
    rsum (map (fun r => mass (domain_of (se_domains st) r) (nthZ [] ws r)) (range SIZE)) = rsum (map (fun c => measure_of cells nodes c * Y c)%R (range (zlen cells))).
Proof.
  intros f32 dim SIZE cells nodes labels npart0 epart bc vs U dt X VM VS. split.
  { apply (mass_step dim cells nodes labels bc vs U X VM dt). intros a Ha; apply (cells_closed dim SIZE cells nodes labels npart0 epart U VM VS a Ha). }
  destruct (C68_parallel_setup f32 dim SIZE cells nodes labels npart0 epart VM VS) as (st & E & RP & _). exists st. split; [exact E|]. intros Y ws (LW & HV).
  destruct (vs_owners _ _ _ _ _ _ VS) as (_ & OW). rewrite <- (owner_sum SIZE epart (range (zlen cells))) by (intros c Hc; apply in_range in Hc; apply OW; exact Hc).
  apply rsum_map_ext. intros r Hr. apply in_range in Hr. pose proof (rp_part _ _ _ _ _ _ _ RP r Hr) as PA. destruct (HV r Hr) as (_ & V). unfold mass. change (filter (fun c => owner epart c =? r) (range (zlen cells))) with (owned cells epart r). rewrite <- (pa_cells _ _ _ _ _ _ _ PA).
  set (D := domain_of (se_domains st) r) in *. rewrite <- (map_nthZ_range (-1) (dm_loctoglob D)) at 2. rewrite map_map. apply rsum_map_ext. intros c Hc. apply in_range in Hc. rewrite (V c Hc). destruct (pa_cell _ _ _ _ _ _ _ PA c Hc) as (_ & _ & EV & _). rewrite EV. reflexivity.
Qed.
Print Assumptions C69_conservation.

(** ** The unit square of two triangles, flow (0, 1), value 1 at the bottom, 0 inside: the hypotheses hold, the step is cfl/4 and the first step lets
    cfl/2 into the lower triangle *)
Definition sq_bc : list (loc * bctype) := [(LBottom, BDirichlet); (LIn, BNeumann); (LOut, BNeumann); (LUpper, BNeumann)].
Definition sq_bcv : list (loc * bcval) := [(LBottom, VNum 1)].
Theorem C69_square_conditions : bc_valid 2 sq_bc sq_bcv /\ dirichlet_within 0 1 sq_bc sq_bcv.
Proof.
  split.
  - split; [|split; [|split; [|split]]].
    + cbn. repeat (apply NoDup_cons; [cbn; intuition discriminate|]). apply NoDup_nil.
    + intros l t H. cbn in H. repeat (destruct H as [H|H]; [injection H as <- <-; split; [cbn; tauto | auto]|]). destruct H.
    + intros l H. cbn in *. tauto.
    + cbn. repeat split; try (intros [X|X]; discriminate X); intros _ l X; cbn in X; intuition discriminate.
    + intros l H. cbn in H. destruct H as [H|H]; [injection H as <-; cbn; discriminate|]. exfalso. intuition discriminate.
  - intros l H. cbn in H. destruct H as [H|H]; [injection H as <-; cbn; lra|]. exfalso. intuition discriminate.
Qed.
Lemma sq_outward c F w : (c = 0 \/ c = 1) -> has_facet 2 sq c F -> outward_of sq_v (cell sq c) F w -> outward sq sq_v c F = w.
Proof. intros Hc HF HO. apply (outward_unique 2 sq sq_v sq_wf c F _ _ HF); [apply (outward_ok 2 sq sq_v sq_wf sq_nonflat); exact HF | exact HO]. Qed.
Lemma sq_at : at_node sq_v 0 = P3 0 0 0 /\ at_node sq_v 1 = P3 1 0 0 /\ at_node sq_v 2 = P3 1 1 0 /\ at_node sq_v 3 = P3 0 1 0.
Proof. repeat split. Qed.
Ltac sq_pts := let A0 := fresh in let A1 := fresh in let A2 := fresh in let A3 := fresh in destruct sq_at as (A0 & A1 & A2 & A3); rewrite ?A0, ?A1, ?A2, ?A3; unfold vdot, vsub, vscal; cbn [px py pz].
Ltac sq_side c F w := apply (sq_outward c F w); [auto | split; [unfold iscell; change (zlen sq) with 2; lia|]; split; [apply SSorted_cons; [apply SSorted_cons; [apply SSorted_nil | apply Forall_nil] | apply Forall_cons; [lia | apply Forall_nil]]|]; split; [reflexivity|]; intros x Hx; vm_compute; cbn in Hx; lia |
  split; [unfold area_vector; cbn [map]; sq_pts; (left; f_equal; ring) || (right; f_equal; ring)|]; intros x p Hx Nx Hp; vm_compute in Hx; cbn in Hp, Nx;
  repeat (destruct Hx as [<-|Hx]; [repeat (destruct Hp as [<-|Hp]; [first [exfalso; tauto | sq_pts; lra] |]); destruct Hp|]); destruct Hx].
Theorem C69_square_outward : let o := outward sq sq_v in
  o 0 [1; 2] = P3 1 0 0 /\ o 0 [0; 2] = P3 (-1) 1 0 /\ o 0 [0; 1] = P3 0 (-1) 0 /\ o 1 [2; 3] = P3 0 1 0 /\ o 1 [0; 2] = P3 1 (-1) 0 /\ o 1 [0; 3] = P3 (-1) 0 0.
Proof.
  cbv zeta. split; [|split; [|split; [|split; [|split]]]].
  - sq_side 0 [1; 2] (P3 1 0 0).
  - sq_side 0 [0; 2] (P3 (-1) 1 0).
  - sq_side 0 [0; 1] (P3 0 (-1) 0).
  - sq_side 1 [2; 3] (P3 0 1 0).
  - sq_side 1 [0; 2] (P3 1 (-1) 0).
  - sq_side 1 [0; 3] (P3 (-1) 0 0).
Qed.
Theorem C69_square_step : forall cfl, (0 < cfl <= 1)%R -> let U := P3 0 1 0 in
  largest_step sq sq_v U cfl (cfl / 4) /\
  upwind_step 2 sq sq_v [4; 4; 3; 3] sq_bc sq_bcv U (cfl / 4) (fun _ => 0%R) 0 = (cfl / 2)%R /\ upwind_step 2 sq sq_v [4; 4; 3; 3] sq_bc sq_bcv U (cfl / 4) (fun _ => 0%R) 1 = 0%R.
Proof.
  intros cfl Hcfl U. destruct C69_square_outward as (O1 & O2 & O3 & O4 & O5 & O6).
  assert (F0 : facets (cell sq 0) = [[1; 2]; [0; 2]; [0; 1]]) by reflexivity. assert (F1 : facets (cell sq 1) = [[2; 3]; [0; 2]; [0; 3]]) by reflexivity.
  assert (M0 : measure_of sq sq_v 0 = (1 / 2)%R). { unfold measure_of, cell_measure. change (cell sq 0) with [0; 1; 2]. cbn [map]. sq_pts. unfold turn. cbn [px py pz]. unfold Rabs. destruct (Rcase_abs _); lra. }
  assert (M1 : measure_of sq sq_v 1 = (1 / 2)%R). { unfold measure_of, cell_measure. change (cell sq 1) with [0; 3; 2]. cbn [map]. sq_pts. unfold turn. cbn [px py pz]. unfold Rabs. destruct (Rcase_abs _); lra. }
  assert (S0 : speed sq sq_v U 0 = 2%R). { unfold speed. rewrite F0. cbn [map rsum fold_right]. unfold rsum; cbn [fold_right]. rewrite O1, O2, O3. unfold U, vdot; cbn [px py pz]. unfold Rabs. repeat destruct (Rcase_abs _); lra. }
  assert (S1 : speed sq sq_v U 1 = 2%R). { unfold speed. rewrite F1. cbn [map rsum fold_right]. unfold rsum; cbn [fold_right]. rewrite O4, O5, O6. unfold U, vdot; cbn [px py pz]. unfold Rabs. repeat destruct (Rcase_abs _); lra. }
  assert (CC : forall c, iscell sq c -> c = 0 \/ c = 1) by (intros c Hc; unfold iscell in Hc; change (zlen sq) with 2 in Hc; lia).
  split; [|split].
  - split; [split; [lra|]; intros c Hc; destruct (CC c Hc) as [-> | ->]; rewrite ?S0, ?S1, ?M0, ?M1; lra|]. intros dt (_ & H). specialize (H 0 ltac:(unfold iscell; change (zlen sq) with 2; lia)). rewrite S0, M0 in H. lra.
  - unfold upwind_step. rewrite F0, M0. unfold rsum; cbn [map fold_right]. unfold leaving. cbv zeta. rewrite O1, O2, O3. unfold U, vdot; cbn [px py pz].
    assert (V : value_beyond 2 sq sq_v [4; 4; 3; 3] sq_bc sq_bcv (fun _ => 0%R) 0 [0; 1] = 1%R) by reflexivity. rewrite V. repeat (destruct (Rle_dec 0 _)); lra.
  - unfold upwind_step. rewrite F1, M1. unfold rsum; cbn [map fold_right]. unfold leaving. cbv zeta. rewrite O4, O5, O6. unfold U, vdot; cbn [px py pz].
    assert (V : value_beyond 2 sq sq_v [4; 4; 3; 3] sq_bc sq_bcv (fun _ => 0%R) 1 [0; 2] = 0%R) by reflexivity. rewrite V. repeat (destruct (Rle_dec 0 _)); lra.
Qed.
(** the same program on one rank and on two ranks *)
Theorem C69_square_runs : forall f32 cfl tfinal X, (0 < cfl)%R ->
  exists st st' n time Y, setup f32 2 1 sq sq_v [4; 4; 3; 3] [0; 0; 0; 0] [0; 0] = Ok st /\ setup f32 2 2 sq sq_v [4; 4; 3; 3] [0; 0; 1; 1] [0; 1] = Ok st' /\
    forall w0 w0' fuel, values_of 0%R 1 (se_domains st) X w0 -> values_of 0%R 2 (se_domains st') X w0' -> (n <= fuel)%nat ->
    exists hs ws hs' ws', transport fuel sq_bc sq_bcv (P3 0 1 0) cfl tfinal 1 st w0 = Ok (Some (time, hs)) /\ transport fuel sq_bc sq_bcv (P3 0 1 0) cfl tfinal 2 st' w0' = Ok (Some (time, hs')) /\
      mapM (fun s => cell_of (hb_ne s)) hs = Ok ws /\ mapM (fun s => cell_of (hb_ne s)) hs' = Ok ws' /\ values_of 0%R 1 (se_domains st) Y ws /\ values_of 0%R 2 (se_domains st') Y ws'.
Proof. intros f32 cfl tfinal X Hc. exact (C69_same_result f32 2 sq sq_v [4; 4; 3; 3] sq_bc sq_bcv (P3 0 1 0) cfl tfinal X 1 _ _ 2 _ _ C68_square C68_square_alone C68_square_split (proj1 C69_square_conditions) Hc). Qed.
