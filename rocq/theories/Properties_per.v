(** * Properties_per: domains and explicit transport on periodic meshes, on one rank (C90). *)
From Coq Require Import Reals Lra Permutation Sorted.
From Verif Require Import Py PyLemmas Model_part Spec_part Model_label Proofs_label Model_conn Spec_conn Proofs_conn1 Proofs_conn2 Model_geom Spec_geom Proofs_geom1 Proofs_geom2 Proofs_geom3
  Model_periodic Spec_periodic Model_interp Spec_interp Properties_interp Model_fvm Spec_fvm Proofs_fvm1 Proofs_fvm2 Model_bc Spec_bc Proofs_bc Proofs_bc2 Model_domain Spec_domain Proofs_domain1 Proofs_domain4 Model_parallel Spec_parallel Proofs_parallel1
  Properties_parallel Properties_fvm Model_comm Model_run Spec_run Proofs_run1 Proofs_run2 Proofs_run3 Proofs_run4 Proofs_run5 Proofs_run6 Proofs_run7.
From Verif Require Import Spec_per Proofs_per2 Proofs_per3 Proofs_per5 Proofs_per8.
From Verif Require Proofs_per4 Proofs_per6 Proofs_per7.
Open Scope Z_scope.

(** C90.  The domain of a periodic mesh: its cells are the cells of the mesh; every facet of a cell is one face, which has the label 0 inside the mesh and the label
    of the facet on the boundary; its second cell is the other cell of the facet, the cell of the facet it faces across the domain, or none (-1). *)
Theorem C90_setup : forall f32 dim cells nodes labels npart0 epart, periodic_mesh dim cells nodes labels f32 -> valid_split dim 1 cells nodes npart0 epart ->
  exists D tc, setup f32 dim 1 cells nodes labels npart0 epart = Ok {| se_domains := [D]; se_comms := []; se_tc := tc |} /\ dm_loctoglob D = range (zlen cells) /\
    (forall c F, has_facet dim cells c F -> exists f, gface D f F /\ forall f', gface D f' F -> f' = f) /\
    forall c f F, has_facet dim cells c F -> gface D f F -> exists a b, nthZ [] (dm_cellid D) f = [a; b] /\ has_facet dim cells a F /\
      b = match next_cell dim cells nodes labels a F with Some d => d | None => -1 end /\
      nthZ 0 (dm_name D) f = match beside cells a F with Some _ => 0 | None => flabel dim labels F end.
Proof.
  intros f32 dim cells nodes labels npart0 epart PM VS. destruct (built f32 dim cells nodes labels npart0 epart PM VS) as (D & D1 & ES & TW & PA & CS & FD & _). exists D, [range (zlen cells)]. split; [exact ES|].
  pose proof (pm_mesh _ _ _ _ _ PM) as WF. pose proof (pm_proper _ _ _ _ _ PM) as PR. destruct (tw_cells _ _ _ _ _ _ _ TW) as (_ & _ & _ & EL & _). destruct (tw_faces _ _ _ _ _ _ _ TW) as (EFN & _). destruct (tw_nodes _ _ _ _ _ _ _ TW) as (_ & _ & _ & _ & EG).
  assert (GF : forall f F, gface D f F <-> gface D1 f F) by (intros f F; unfold gface, isface, gnode; rewrite EFN, EG; tauto).
  split; [rewrite EL; apply (Proofs_per4.loc_all dim cells nodes npart0 epart D1 VS PA)|]. split.
  - intros c F HF. destruct (pa_facets _ _ _ _ _ _ _ PA c F HF (Proofs_per4.owns dim cells nodes npart0 epart VS c (proj1 HF))) as (f & HG & HU). exists f. split; [apply GF; exact HG|]. intros f' HG'. apply HU, GF. exact HG'.
  - intros c f F HF HG. apply GF in HG. pose proof (fset_eq dim cells D1 f F c HF HG) as EF. pose proof (proj1 HG) as If.
    destruct (tw_face _ _ _ _ _ _ _ TW f If) as [a b r r1 n n1 cb | a r r1 n n1 one pl | a f' r r1 n n1 one pe other one' face]; rewrite ?EF in *.
    + exists a, b. split; [exact r|]. destruct (pa_kinds _ _ _ _ _ _ _ PA f c F HF HG) as [a' b' Ca Cb two sides row name | a' Ca one row name label | a' Ca Hh other sides row name]; [|lia|lia]. rewrite r1 in row. injection row as <- <-.
      pose proof (Proofs_per4.gcell1 dim cells nodes npart0 epart D1 VS PA) as GC. apply (Proofs_per4.is_cell f32 dim cells nodes labels npart0 epart D D1 VS TW PA) in Ca. rewrite (GC a Ca), (GC b cb) in sides.
      assert (Fa : has_facet dim cells a F) by (apply sides; auto). assert (Fb : has_facet dim cells b F) by (apply sides; auto). pose proof (proj2 (beside_spec dim cells nodes WF PR a F b Fa) (conj Fb (not_eq_sym two))) as EB.
      split; [exact Fa|]. unfold next_cell. rewrite EB, n. auto.
    + exists a, (-1). split; [exact r|]. split; [exact (proj1 one)|]. unfold next_cell. rewrite (proj2 (beside_none dim cells nodes WF PR a F (proj1 one)) one), (across_plain f32 dim cells nodes labels PM a F one pl). auto.
    + exists a, (left_of D1 f'). split; [exact r|]. split; [exact (proj1 one)|]. unfold next_cell. rewrite (proj2 (beside_none dim cells nodes WF PR a F (proj1 one)) one).
      assert (AD : across_domain dim cells nodes labels F = Some (left_of D1 f', fset D1 f')).
      { destruct face as (ax & L & Ha & PD & [(L1 & L2 & AC)|(L1 & L2 & AC)]); [apply (across_ok f32 dim cells nodes labels PM ax L a F (left_of D1 f') (fset D1 f')); assumption | apply (across_ok f32 dim cells nodes labels PM ax L (left_of D1 f') (fset D1 f') a F); assumption]. }
      rewrite AD. auto.
Qed.
Print Assumptions C90_setup.

(** The transport program runs, makes n steps of the largest length dt that the CFL condition allows, and then holds the values of the first-order upwind scheme
    in which the facing cell lies beyond a periodic facet. *)
Theorem C90_transport : forall f32 dim cells nodes labels npart0 epart bc vs U cfl tfinal,
  periodic_mesh dim cells nodes labels f32 -> valid_split dim 1 cells nodes npart0 epart -> per_bc_valid dim cells labels bc vs -> (0 < cfl)%R ->
  exists st dt n, setup f32 dim 1 cells nodes labels npart0 epart = Ok st /\ (0 < dt)%R /\ largest_step cells nodes U cfl dt /\
    (tfinal <= INR n * dt)%R /\ (forall m, (m < n)%nat -> (INR m * dt < tfinal)%R) /\
    forall w0 fuel, zlen w0 = zlen cells -> (n <= fuel)%nat ->
    exists s w, transport fuel bc vs U cfl tfinal 1 st [w0] = Ok (Some (INR n * dt, [s])%R) /\ cell_of (hb_ne s) = Ok w /\ zlen w = zlen cells /\
      forall c, iscell cells c -> nthZ 0%R w c = per_run dim cells nodes labels n bc vs U dt (nthZ 0%R w0) c.
Proof.
  intros f32 dim cells nodes labels npart0 epart bc vs U cfl tfinal PM VS BV HC. destruct (built f32 dim cells nodes labels npart0 epart PM VS) as (D & D1 & ES & TW & PA & CS & FD & _).
  pose proof (Proofs_per7.transport_per f32 dim cells nodes labels npart0 epart D D1 PM VS TW PA CS FD bc vs U cfl [range (zlen cells)] BV HC) as T.
  destruct (T (fun _ => 0%R) (zeros_like 0%R (zlen cells)) tfinal) as (dt & n & PD & LS & T1 & T2 & _). { split; [apply zlen_zeros_like, zlen_nonneg|]. intros c Hc. apply nthZ_zeros_like. exact Hc. }
  eexists _, dt, n. split; [exact ES|]. split; [exact PD|]. split; [exact LS|]. split; [exact T1|]. split; [exact T2|]. intros w0 fuel LW Hf.
  destruct (T (nthZ 0%R w0) w0 tfinal) as (dt' & n' & PD' & LS' & T1' & T2' & R). { split; [exact LW | reflexivity]. } pose proof (largest_unique _ _ _ _ _ _ LS' LS) as ->.
  assert (n' = n). { destruct (Nat.lt_trichotomy n' n) as [H|[H|H]]; [|exact H|]; exfalso; [pose proof (T2 n' H) | pose proof (T2' n H)]; lra. } subst n'.
  destruct (R fuel Hf) as (s & w & A & B & C1 & C2). exists s, w. auto.
Qed.
Print Assumptions C90_transport.

Lemma per_closed f32 dim cells nodes labels npart0 epart U : periodic_mesh dim cells nodes labels f32 -> valid_split dim 1 cells nodes npart0 epart -> forall c, iscell cells c ->
  rsum (map (fun F => vdot U (outward cells nodes c F)) (facets (cell cells c))) = 0%R /\ (0 < measure_of cells nodes c)%R.
Proof.
  intros PM VS c Hc. destruct (built f32 dim cells nodes labels npart0 epart PM VS) as (D & D1 & ES & TW & PA & CS & FD & _). pose proof (proj2 (Proofs_per4.is_cell f32 dim cells nodes labels npart0 epart D D1 VS TW PA c) Hc) as Hc1. pose proof (Proofs_per4.gcell1 dim cells nodes npart0 epart D1 VS PA c Hc) as EC.
  pose proof (cell_closed dim cells nodes (ones nodes) epart 0 D1 U c (VM1 f32 dim cells nodes labels PM) PA CS Hc1) as CL. rewrite EC in CL. split; [exact CL|]. destruct (pa_cell _ _ _ _ _ _ _ PA c Hc1) as (_ & _ & EV & PV). rewrite EC in EV. unfold measure_of. rewrite <- EV. exact PV.
Qed.
(** With cfl <= 1 the values stay between the bounds of the initial and the dirichlet values. *)
Theorem C90_bounds : forall f32 dim cells nodes labels npart0 epart bc vs U cfl tfinal lo hi w0,
  periodic_mesh dim cells nodes labels f32 -> valid_split dim 1 cells nodes npart0 epart -> per_bc_valid dim cells labels bc vs -> (0 < cfl <= 1)%R ->
  zlen w0 = zlen cells -> (forall x, In x w0 -> (lo <= x <= hi)%R) -> dirichlet_within lo hi bc vs ->
  exists st n, setup f32 dim 1 cells nodes labels npart0 epart = Ok st /\ forall fuel, (n <= fuel)%nat ->
    exists time s w, transport fuel bc vs U cfl tfinal 1 st [w0] = Ok (Some (time, [s])) /\ cell_of (hb_ne s) = Ok w /\ forall x, In x w -> (lo <= x <= hi)%R.
Proof.
  intros f32 dim cells nodes labels npart0 epart bc vs U cfl tfinal lo hi w0 PM VS BV HC LW HB HD. destruct (C90_transport f32 dim cells nodes labels npart0 epart bc vs U cfl tfinal PM VS BV ltac:(lra)) as (st & dt & n & E & PD & LS & _ & _ & R). exists st, n. split; [exact E|]. intros fuel Hf.
  destruct (R w0 fuel LW Hf) as (s & w & A & B & LW' & V). exists (INR n * dt)%R, s, w. split; [exact A|]. split; [exact B|]. intros x Hx. destruct (In_nthZ 0%R _ _ Hx) as (c & Hc & <-). rewrite LW' in Hc. rewrite V by exact Hc.
  apply (run_within_per f32 dim cells nodes labels PM bc vs U) with (cfl := cfl); [intros a Ha; apply (per_closed f32 dim cells nodes labels npart0 epart U PM VS a Ha) | intros a Ha; apply (per_closed f32 dim cells nodes labels npart0 epart U PM VS a Ha) | exact HD | lra | lra | exact (proj1 LS) | | exact Hc].
  intros a Ha. apply HB. apply nthZ_In. unfold iscell in Ha. lia.
Qed.
Print Assumptions C90_bounds.

(** A constant is kept if the dirichlet values equal it, whatever the CFL number. *)
Theorem C90_constant : forall f32 dim cells nodes labels npart0 epart bc vs U cfl tfinal k,
  periodic_mesh dim cells nodes labels f32 -> valid_split dim 1 cells nodes npart0 epart -> per_bc_valid dim cells labels bc vs -> (0 < cfl)%R -> dirichlet_within k k bc vs ->
  exists st n, setup f32 dim 1 cells nodes labels npart0 epart = Ok st /\ forall fuel, (n <= fuel)%nat ->
    exists time s, transport fuel bc vs U cfl tfinal 1 st [zeros_like k (zlen cells)] = Ok (Some (time, [s])) /\ cell_of (hb_ne s) = Ok (zeros_like k (zlen cells)).
Proof.
  intros f32 dim cells nodes labels npart0 epart bc vs U cfl tfinal k PM VS BV HC HD. destruct (C90_transport f32 dim cells nodes labels npart0 epart bc vs U cfl tfinal PM VS BV HC) as (st & dt & n & E & PD & LS & _ & _ & R). exists st, n. split; [exact E|]. intros fuel Hf.
  assert (LZ : zlen (zeros_like k (zlen cells)) = zlen cells) by apply zlen_zeros_like, zlen_nonneg. destruct (R (zeros_like k (zlen cells)) fuel LZ Hf) as (s & w & A & B & LW' & V). exists (INR n * dt)%R, s. split; [exact A|]. rewrite B. f_equal.
  assert (ZK : forall c, iscell cells c -> nthZ 0%R (zeros_like k (zlen cells)) c = k) by (intros c Hc; unfold iscell in Hc; unfold zeros_like; rewrite (nthZ_map _ 0) by (rewrite zlen_range; lia); reflexivity).
  apply (nthZ_ext 0%R); [congruence|]. intros c Hc. rewrite LW' in Hc. rewrite (V c Hc), (ZK c Hc).
  apply (constant_per f32 dim cells nodes labels PM bc vs U); [intros a Ha; apply (per_closed f32 dim cells nodes labels npart0 epart U PM VS a Ha) | exact HD | exact ZK | exact Hc].
Qed.
Print Assumptions C90_constant.

(** One step changes the sum of measure times value by what crosses the sides that are not periodic *)
Theorem C90_balance : forall f32 dim cells nodes labels npart0 epart bc vs U dt X,
  periodic_mesh dim cells nodes labels f32 -> valid_split dim 1 cells nodes npart0 epart ->
  rsum (map (fun c => measure_of cells nodes c * per_step dim cells nodes labels bc vs U dt X c)%R (range (zlen cells))) =
  (rsum (map (fun c => measure_of cells nodes c * X c) (range (zlen cells))) - dt * rsum (map (fun p => per_leaving dim cells nodes labels bc vs U X (fst p) (snd p)) (open_facets dim cells labels)))%R.
Proof.
  intros f32 dim cells nodes labels npart0 epart bc vs U dt X PM VS. apply (mass_per f32 dim cells nodes labels PM). intros a Ha. apply (per_closed f32 dim cells nodes labels npart0 epart U PM VS a Ha).
Qed.
Print Assumptions C90_balance.
(** and the program conserves this sum if every boundary facet lies on a periodic side. *)
Theorem C90_conservation : forall f32 dim cells nodes labels npart0 epart bc vs U cfl tfinal w0,
  periodic_mesh dim cells nodes labels f32 -> valid_split dim 1 cells nodes npart0 epart -> per_bc_valid dim cells labels bc vs -> (0 < cfl)%R ->
  (forall c F, only_cell dim cells c F -> is_periodic dim (flabel dim labels F) = true) -> zlen w0 = zlen cells ->
  exists st n, setup f32 dim 1 cells nodes labels npart0 epart = Ok st /\ forall fuel, (n <= fuel)%nat ->
    exists time s w, transport fuel bc vs U cfl tfinal 1 st [w0] = Ok (Some (time, [s])) /\ cell_of (hb_ne s) = Ok w /\
      rsum (map (fun c => measure_of cells nodes c * nthZ 0%R w c)%R (range (zlen cells))) = rsum (map (fun c => measure_of cells nodes c * nthZ 0%R w0 c)%R (range (zlen cells))).
Proof.
  intros f32 dim cells nodes labels npart0 epart bc vs U cfl tfinal w0 PM VS BV HC HP LW. destruct (C90_transport f32 dim cells nodes labels npart0 epart bc vs U cfl tfinal PM VS BV HC) as (st & dt & n & E & PD & LS & _ & _ & R). exists st, n. split; [exact E|]. intros fuel Hf.
  destruct (R w0 fuel LW Hf) as (s & w & A & B & LW' & V). exists (INR n * dt)%R, s, w. split; [exact A|]. split; [exact B|].
  assert (OF : open_facets dim cells labels = []).
  { unfold open_facets. assert (H : forall e, In e (boundary_facets cells) -> (partner_label (flabel dim labels (snd e)) =? 0) = false). { intros (c, F) HI. apply (in_bd f32 dim cells nodes labels PM) in HI. cbn [snd]. rewrite (partner_zero f32 dim cells nodes labels PM c F HI), (HP c F HI). reflexivity. }
    revert H. generalize (boundary_facets cells). induction l as [|e l IH]; intros H; [reflexivity|]. cbn [filter]. rewrite (H e (or_introl eq_refl)). apply IH. intros e' He'. apply H. right. exact He'. }
  transitivity (rsum (map (fun c => measure_of cells nodes c * per_run dim cells nodes labels n bc vs U dt (nthZ 0%R w0) c)%R (range (zlen cells)))); [apply rsum_map_ext; intros c Hc; apply in_range in Hc; rewrite (V c Hc); reflexivity|].
  clear R A V B Hf. induction n as [|n IH]; [reflexivity|]. cbn [per_run]. rewrite (C90_balance f32 dim cells nodes labels npart0 epart bc vs U dt _ PM VS), OF, IH. cbn. ring.
Qed.
Print Assumptions C90_conservation.
