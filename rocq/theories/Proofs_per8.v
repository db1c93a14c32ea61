(** * Proofs_per8: bounds, constants and mass for the scheme on a periodic mesh. *)
From Coq Require Import Reals Lra Permutation Sorted.
From Verif Require Import Py PyLemmas Model_part Spec_part Model_label Proofs_label Model_conn Spec_conn Proofs_conn1 Proofs_conn2 Model_geom Spec_geom Proofs_geom1 Proofs_geom2 Proofs_geom3
  Model_periodic Spec_periodic Model_interp Spec_interp Properties_interp Model_fvm Spec_fvm Proofs_fvm1 Proofs_fvm2 Model_bc Spec_bc Proofs_bc Proofs_bc2 Model_domain Spec_domain Proofs_domain1 Proofs_domain4 Model_parallel Spec_parallel Proofs_parallel1
  Properties_parallel Properties_fvm Model_comm Model_run Spec_run Proofs_run1 Proofs_run2 Proofs_run3 Proofs_run4 Proofs_run5 Proofs_run6 Proofs_run7.
From Verif Require Import Spec_per Proofs_per2 Proofs_per3 Proofs_per5.
Open Scope Z_scope.

Section Mesh.
Context (f32 : R -> R) (dim : Z) (cells : list (list Z)) (nodes : list pt) (labels : list Z).
Hypothesis PM : periodic_mesh dim cells nodes labels f32.
Notation VM := (VM1 f32 dim cells nodes labels PM).
Notation WF := (pm_mesh _ _ _ _ _ PM).
Notation Hd := (wm_dim _ _ _ (pm_mesh _ _ _ _ _ PM)).
Context (bc : list (loc * bctype)) (vs : list (loc * bcval)) (U : pt).
Hypothesis CL : forall c, iscell cells c -> rsum (map (fun F => vdot U (outward cells nodes c F)) (facets (cell cells c))) = 0%R.
Hypothesis MP : forall c, iscell cells c -> (0 < measure_of cells nodes c)%R.
Notation next := (next_cell dim cells nodes labels).
Notation beyond := (per_beyond dim cells nodes labels bc vs).
Notation leave := (per_leaving dim cells nodes labels bc vs U).

Lemma next_is_cell c F d : next c F = Some d -> iscell cells d.
Proof.
  unfold next_cell. destruct (beside cells c F) as [e|] eqn:E; [intros X; injection X as <-; unfold beside in E; apply find_some in E as (E & _); apply in_range; exact E|].
  unfold across_domain. destruct (find _ _) as [(e, G)|] eqn:E2; [|discriminate]. cbn [option_map fst]. intros X. injection X as <-. apply find_some in E2 as (HI & _). apply (in_bd f32 dim cells nodes labels PM) in HI. exact (proj1 (proj1 HI)).
Qed.
Section Bounds.
Variables (cfl dt lo hi : R).
Hypothesis HD : dirichlet_within lo hi bc vs.
Lemma step_within_per X : (0 <= dt)%R -> (cfl <= 1)%R -> cfl_ok cells nodes U cfl dt -> (forall c, iscell cells c -> lo <= X c <= hi)%R -> forall c, iscell cells c -> (lo <= per_step dim cells nodes labels bc vs U dt X c <= hi)%R.
Proof.
  intros Hdt Hcfl (_ & HS) HX c Hc. unfold per_step. set (m := measure_of cells nodes c). assert (Hm : (0 < m)%R) by (apply MP; exact Hc). specialize (HS c Hc). fold m in HS.
  set (q := fun F => vdot U (outward cells nodes c F)). set (Y := beyond X c).
  assert (HY : forall F, (lo <= Y F <= hi)%R). { intros F. unfold Y, per_beyond. destruct (next c F) as [d|] eqn:E; [apply HX; exact (next_is_cell c F d E) | apply (boundary_within dim nodes labels bc vs lo hi HD), HX, Hc]. }
  set (FS := facets (cell cells c)).
  assert (E : rsum (map (leave X c) FS) = rsum (map (fun F => Rmax 0 (- q F) * (X c - Y F))%R FS)).
  { transitivity (rsum (map (fun F => X c * q F + Rmax 0 (- q F) * (X c - Y F))%R FS)).
    - apply rsum_map_ext. intros F _. unfold per_leaving. cbv zeta. fold (q F). fold (Y F). unfold Rmax. destruct (Rle_dec 0 (q F)), (Rle_dec 0 (- q F)); [replace (q F) with 0%R by lra; ring | ring | ring | exfalso; lra].
    - rewrite rsum_map_add, rsum_map_scal. pose proof (CL c Hc) as CLc. fold FS in CLc. change (rsum (map q FS) = 0%R) in CLc. change (map (fun x => q x) FS) with (map q FS). rewrite CLc. ring. }
  rewrite E. set (s := rsum (map (fun F => Rmax 0 (- q F)) FS)).
  assert (S0 : (0 <= s)%R) by (apply rsum_map_nonneg; intros; apply Rmax_l).
  assert (S1 : (s <= speed cells nodes U c)%R). { apply rsum_map_le. intros F _. fold (q F). unfold Rmax. destruct (Rle_dec 0 (- q F)); [rewrite <- Rabs_Ropp; apply Rle_abs | apply Rabs_pos]. }
  assert (S2 : (dt / m * s <= 1)%R). { apply (Rmult_le_reg_r m); [exact Hm|]. replace (dt / m * s * m)%R with (dt * s)%R by (field; lra). apply Rle_trans with (dt * speed cells nodes U c)%R; [apply Rmult_le_compat_l; assumption|]. eapply Rle_trans; [exact HS|]. apply Rmult_le_compat_r; lra. }
  assert (S3 : (0 <= dt / m)%R) by (apply Rmult_le_pos; [exact Hdt | left; apply Rinv_0_lt_compat; exact Hm]).
  assert (UB : (rsum (map (fun F => Rmax 0 (- q F) * (X c - Y F)) FS) <= s * (X c - lo))%R).
  { unfold s. rewrite Rmult_comm, <- rsum_map_scal. apply rsum_map_le. intros F _. rewrite (Rmult_comm (X c - lo)). apply Rmult_le_compat_l; [apply Rmax_l|]. pose proof (HY F). lra. }
  assert (LB : (- (s * (hi - X c)) <= rsum (map (fun F => Rmax 0 (- q F) * (X c - Y F)) FS))%R).
  { unfold s. rewrite <- Ropp_mult_distr_r_reverse, Rmult_comm, <- rsum_map_scal. apply rsum_map_le. intros F _. rewrite (Rmult_comm (- (hi - X c))). apply Rmult_le_compat_l; [apply Rmax_l|]. pose proof (HY F). lra. }
  set (T := rsum (map (fun F => Rmax 0 (- q F) * (X c - Y F))%R FS)) in *. pose proof (HX c Hc) as HXc. set (k := (dt / m)%R) in *. set (x := X c) in *.
  assert (K1 : (k * T <= k * (s * (x - lo)))%R) by (apply Rmult_le_compat_l; assumption). assert (K2 : (k * - (s * (hi - x)) <= k * T)%R) by (apply Rmult_le_compat_l; assumption).
  assert (K3 : (k * s * (x - lo) <= 1 * (x - lo))%R) by (apply Rmult_le_compat_r; lra). assert (K4 : (k * s * (hi - x) <= 1 * (hi - x))%R) by (apply Rmult_le_compat_r; lra).
  split; lra.
Qed.
Lemma run_within_per X n : (0 <= dt)%R -> (cfl <= 1)%R -> cfl_ok cells nodes U cfl dt -> (forall c, iscell cells c -> lo <= X c <= hi)%R -> forall c, iscell cells c -> (lo <= per_run dim cells nodes labels n bc vs U dt X c <= hi)%R.
Proof. intros H1 H2 H3 HX. induction n as [|n IH]; [exact HX|]. cbn [per_run]. apply step_within_per; assumption. Qed.
End Bounds.
(** constants, with any time step *)
Lemma constant_per k dt X : dirichlet_within k k bc vs -> (forall c, iscell cells c -> X c = k) -> forall n c, iscell cells c -> per_run dim cells nodes labels n bc vs U dt X c = k.
Proof.
  intros HD HX n. induction n as [|n IH]; [exact HX|]. intros c Hc. cbn [per_run]. unfold per_step. set (Y := per_run dim cells nodes labels n bc vs U dt X) in *.
  assert (E : rsum (map (leave Y c) (facets (cell cells c))) = 0%R).
  { transitivity (rsum (map (fun F => k * vdot U (outward cells nodes c F))%R (facets (cell cells c)))).
    - apply rsum_map_ext. intros F _. unfold per_leaving. cbv zeta. rewrite (IH c Hc). assert (EB : beyond Y c F = k). { unfold per_beyond. destruct (next c F) as [d|] eqn:E; [apply IH; exact (next_is_cell c F d E)|]. rewrite (IH c Hc). pose proof (boundary_within dim nodes labels bc vs k k HD F k ltac:(lra)). lra. } rewrite EB. destruct (Rle_dec 0 _); ring.
    - rewrite rsum_map_scal, (CL c Hc). ring. }
  rewrite E, (IH c Hc). ring.
Qed.

(** ** mass *)
Section Mass.
Variable X : Z -> R.
Lemma upwind_minus u x y : (- u * (if Rle_dec 0 (- u) then y else x) = - (u * if Rle_dec 0 u then x else y))%R.
Proof. symmetry. apply upwind_opp. Qed.
Lemma vdot_minus v : vdot U (vscal (-1) v) = (- vdot U v)%R. Proof. unfold vdot, vscal; cbn [px py pz]; ring. Qed.
Lemma leave_inner c d F : has_facet dim cells c F -> beside cells c F = Some d -> leave X d F = (- leave X c F)%R.
Proof.
  intros HF E. pose proof (proj1 (beside_spec dim cells nodes WF (pm_proper _ _ _ _ _ PM) c F d HF) E) as (HdF & N).
  pose proof (proj2 (beside_spec dim cells nodes WF (pm_proper _ _ _ _ _ PM) d F c HdF) (conj HF (not_eq_sym N))) as E'.
  unfold per_leaving, per_beyond, next_cell. cbv zeta. rewrite E, E'. rewrite (outward_two dim cells nodes WF (pm_nonflat _ _ _ _ _ PM) (pm_proper _ _ _ _ _ PM) c d F HF HdF (not_eq_sym N)), vdot_minus. apply upwind_minus.
Qed.
Lemma leave_periodic c F c' G : only_cell dim cells c F -> only_cell dim cells c' G -> across_domain dim cells nodes labels F = Some (c', G) -> across_domain dim cells nodes labels G = Some (c, F) ->
  outward cells nodes c' G = vscal (-1) (outward cells nodes c F) -> leave X c' G = (- leave X c F)%R.
Proof.
  intros OF OG A1 A2 EO. unfold per_leaving, per_beyond, next_cell. cbv zeta. rewrite (proj2 (beside_none dim cells nodes WF (pm_proper _ _ _ _ _ PM) c F (proj1 OF)) OF), (proj2 (beside_none dim cells nodes WF (pm_proper _ _ _ _ _ PM) c' G (proj1 OG)) OG), A1, A2. cbn [option_map fst]. rewrite EO, vdot_minus. apply upwind_minus.
Qed.
Lemma inner_zero_per : rsum (map (fun p => leave X (fst p) (snd p)) (inner_facets cells)) = 0%R.
Proof.
  apply (involution_sum _ (fun p => (match beside cells (fst p) (snd p) with Some d => d | None => 0 end, snd p))); [exact (inner_NoDup dim cells nodes (ones nodes) VM)|]. intros (c, F) HI. apply (in_inner dim cells nodes (ones nodes) VM) in HI as (HF & d & E). cbn [fst snd]. rewrite E.
  pose proof (proj1 (beside_spec dim cells nodes WF (pm_proper _ _ _ _ _ PM) c F d HF) E) as (HdF & N). pose proof (proj2 (beside_spec dim cells nodes WF (pm_proper _ _ _ _ _ PM) d F c HdF) (conj HF (not_eq_sym N))) as E'.
  split; [apply (in_inner dim cells nodes (ones nodes) VM); split; [exact HdF | exists c; exact E']|]. rewrite E'. split; [reflexivity|]. apply leave_inner; assumption.
Qed.
Definition across_facets : list (Z * list Z) := filter (fun e => negb (partner_label (flabel dim labels (snd e)) =? 0)) (boundary_facets cells).
Lemma across_zero : rsum (map (fun p => leave X (fst p) (snd p)) across_facets) = 0%R.
Proof.
  apply (involution_sum _ (fun p => match across_domain dim cells nodes labels (snd p) with Some e => e | None => p end)); [apply NoDup_filter; exact (boundary_NoDup dim cells nodes (ones nodes) VM)|].
  intros (c, F) HI. unfold across_facets in *. apply filter_In in HI as (HI & HP). apply (in_bd f32 dim cells nodes labels PM) in HI. cbn [fst snd] in *. rewrite (partner_zero f32 dim cells nodes labels PM c F HI), negb_involutive in HP.
  destruct (partner f32 dim cells nodes labels PM c F HI HP) as (c' & G & OG & IG & A1 & A2 & EO). rewrite A1. cbn [fst snd]. rewrite A2. split; [|split; [reflexivity | apply leave_periodic; assumption]].
  apply filter_In. split; [apply (in_bd f32 dim cells nodes labels PM); exact OG|]. cbn [snd]. rewrite (partner_zero f32 dim cells nodes labels PM c' G OG), negb_involutive. exact IG.
Qed.
Lemma boundary_open : rsum (map (fun p => leave X (fst p) (snd p)) (boundary_facets cells)) = rsum (map (fun p => leave X (fst p) (snd p)) (open_facets dim cells labels)).
Proof.
  rewrite <- (Rplus_0_r (rsum (map _ (open_facets dim cells labels)))). rewrite <- across_zero. unfold open_facets, across_facets. rewrite !rsum_filter, <- rsum_map_add. apply rsum_map_ext. intros p _. destruct (partner_label (flabel dim labels (snd p)) =? 0); cbn [negb]; ring.
Qed.
Lemma split_per : rsum (map (fun c => rsum (map (leave X c) (facets (cell cells c)))) (range (zlen cells))) = rsum (map (fun p => leave X (fst p) (snd p)) (open_facets dim cells labels)).
Proof.
  rewrite <- boundary_open. rewrite <- Rplus_0_r. rewrite <- inner_zero_per. unfold inner_facets, boundary_facets. induction (range (zlen cells)) as [|c l IH]; cbn [map flat_map]; [cbn; ring|]. rewrite rsum_cons, IH, !map_app, !rsum_app.
  set (a := rsum (map _ (flat_map _ l))). set (b := rsum (map _ (flat_map _ l))).
  assert (E : rsum (map (leave X c) (facets (cell cells c))) =
    (rsum (map (fun p => leave X (fst p) (snd p)) (map (pair c) (filter (fun F => match beside cells c F with None => true | Some _ => false end) (facets (cell cells c))))) +
     rsum (map (fun p => leave X (fst p) (snd p)) (map (pair c) (filter (fun F => match beside cells c F with None => false | Some _ => true end) (facets (cell cells c))))))%R).
  { rewrite !map_map. cbn [fst snd]. rewrite !rsum_filter, <- rsum_map_add. apply rsum_map_ext. intros F _. destruct (beside cells c F); ring. }
  rewrite E. ring.
Qed.
Lemma mass_per dt : rsum (map (fun c => measure_of cells nodes c * per_step dim cells nodes labels bc vs U dt X c)%R (range (zlen cells))) =
  (rsum (map (fun c => measure_of cells nodes c * X c) (range (zlen cells))) - dt * rsum (map (fun p => leave X (fst p) (snd p)) (open_facets dim cells labels)))%R.
Proof.
  rewrite <- split_per. unfold Rminus. rewrite Ropp_mult_distr_l, <- rsum_map_scal, <- rsum_map_add. apply rsum_map_ext. intros c Hc. apply in_range in Hc. unfold per_step. field. apply Rgt_not_eq, MP. exact Hc.
Qed.
End Mass.
End Mesh.
