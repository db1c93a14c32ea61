(** * Proofs_run6: bounds and conservation of the scheme. *)
From Coq Require Import Reals Lra Permutation Sorted.
From Verif Require Import Py PyLemmas Model_part Spec_part Model_label Model_conn Spec_conn Proofs_conn1 Proofs_conn2 Model_geom Spec_geom Proofs_geom1 Proofs_geom2 Proofs_geom3
  Model_interp Spec_interp Properties_interp Model_fvm Spec_fvm Proofs_fvm1 Proofs_fvm2 Model_bc Spec_bc Proofs_bc2 Model_domain Spec_domain Proofs_domain1 Proofs_domain4 Model_parallel Spec_parallel Proofs_parallel1
  Properties_parallel Properties_fvm Model_comm Model_run Spec_run Proofs_run1 Proofs_run2 Proofs_run3 Proofs_run4 Proofs_run5.
Open Scope Z_scope.

(** what leaves a cell in a uniform flow *)
Lemma cell_closed dim cells nodes labels epart r D U c : valid_mesh dim cells nodes labels -> part_of dim cells nodes labels epart r D -> consistent dim D -> iscell_of D c ->
  rsum (map (fun F => vdot U (outward cells nodes (gcell D c) F)) (facets (cell cells (gcell D c)))) = 0%R.
Proof.
  intros VM PA CS Hc. destruct (pa_sizes _ _ _ _ _ _ _ PA) as (_ & S2 & S3 & SF & SC & SH & _). destruct (faces_count dim cells nodes labels epart r D PA CS) as (N1 & N2 & N3).
  set (A := {| ad_c := zeros_like 1%R (zlen (dm_center D)); ad_ghost := zeros_like 1%R (zlen (dm_cellid D)); ad_halo := zeros_like 1%R (zlen (dm_centerh D)); ad_grad := []; ad_gradh := []; ad_psi := []; ad_psih := [] |}).
  set (vel := zeros_like U (zlen (dm_cellid D))).
  assert (ZL : forall A (k d : A) n i, 0 <= i < n -> nthZ d (zeros_like k n) i = k) by (intros B k d n i Hi; unfold zeros_like; rewrite (nthZ_map _ 0) by (rewrite zlen_range; lia); reflexivity).
  assert (EV : forall f, isface D f -> nthZ vzero vel f = U) by (intros f Hf; unfold isface in Hf; apply ZL; lia).
  assert (FF : forall f, In f (nthZ [] (dm_faceid D) c) -> leaves (dom_fv D) (fv_flux dim 1 (dom_fv D) A vel) c f = vdot U (outward cells nodes (gcell D c) (fset D f))).
  { intros f Hf. rewrite (flux_face dim cells nodes labels epart r D VM PA CS [] [] U (fun _ => 1%R) A vel EV) with (c := c) (f := f); [| | | |exact Hc | exact Hf].
    - unfold leaving, value_beyond, boundary_value. cbv zeta. cbn [find]. destruct (beside cells (gcell D c) (fset D f)); destruct (Rle_dec 0 _); ring.
    - intros c' Hc'. unfold iscell_of in Hc'. apply ZL. lia.
    - intros h Hh. unfold ishalo_of in Hh. apply ZL. lia.
    - intros f' c' _ If _. unfold isface in If. unfold boundary_value. cbn [find]. apply ZL. lia. }
  rewrite <- (sum_faces dim cells nodes labels epart r D VM PA CS _ (fun F => vdot U (outward cells nodes (gcell D c) F)) c Hc FF).
  assert (CC : closed_cell (dom_fv D) (dom_lists D) c) by (apply (cs_closed _ _ CS); unfold iscell_of in Hc; lia).
  assert (AF : forall f, In f (all_faces (dom_lists D)) -> 0 <= f < zlen (dm_cellid D)) by (intros f Hf; apply in_range; exact (Permutation_in f (cs_each_face_once _ _ CS) Hf)).
  rewrite <- (closed_div (dom_fv D) (dom_lists D) vel U c) at 1; [| intros f Hf; apply ZL, AF, Hf | exact CC].
  apply rsum_map_ext. intros f Hf. apply leaves_ext. unfold fv_flux. specialize (AF f Hf).
  assert (If : isface D f) by (unfold isface; lia). destruct (fset_facet dim cells nodes labels epart r D PA f If) as (c0 & HF & _ & HG). destruct (cs_fv _ _ CS) as (WFV & _). destruct (wfv_face _ _ WFV f AF) as (_ & C0 & C1 & C2).
  assert (E0 : left_state dim 1 (dom_fv D) A f = 1%R) by (unfold left_state; cbv zeta; rewrite first_order; apply ZL; exact C0).
  assert (E1 : right_state dim 1 (dom_fv D) A f = 1%R). { unfold right_state. cbv zeta. destruct (Z.eqb_spec (fv_label (dom_fv D) f) 0) as [L0|L0]; [rewrite first_order; apply ZL, C1; auto|]. destruct (is_periodic dim (fv_label (dom_fv D) f)) eqn:IP; [rewrite first_order; apply ZL, C1; auto|].
    destruct (Z.eqb_spec (fv_label (dom_fv D) f) 10) as [L10|L10]; [rewrite first_order; apply ZL, C2; exact L10 | apply ZL; exact AF]. }
  rewrite E0, E1. destruct (Rle_dec 0 _); ring.
Qed.

(** prescribed values between lo and hi *)
Section Bounds.
Context (dim : Z) (cells : list (list Z)) (nodes : list pt) (labels : list Z) (bc : list (loc * bctype)) (vs : list (loc * bcval)) (U : pt) (cfl dt lo hi : R).
Hypothesis CL : forall c, iscell cells c -> rsum (map (fun F => vdot U (outward cells nodes c F)) (facets (cell cells c))) = 0%R.
Hypothesis MP : forall c, iscell cells c -> (0 < measure_of cells nodes c)%R.
Hypothesis HD : dirichlet_within lo hi bc vs.
Lemma boundary_within F x : (lo <= x <= hi)%R -> (lo <= boundary_value dim nodes labels bc vs F x <= hi)%R.
Proof.
  intros Hx. unfold boundary_value. destruct (find _ bc) as [(l, t)|] eqn:E; [|exact Hx]. apply find_some in E as (HI & _). destruct t; try exact Hx. specialize (HD l HI). destruct (lookup vs l) as [[g|y|]|]; [apply HD | exact HD | exact HD | exact HD].
Qed.
Lemma step_within X : (0 <= dt)%R -> (cfl <= 1)%R -> cfl_ok cells nodes U cfl dt -> (forall c, iscell cells c -> lo <= X c <= hi)%R -> forall c, iscell cells c -> (lo <= upwind_step dim cells nodes labels bc vs U dt X c <= hi)%R.
Proof.
  intros Hdt Hcfl (_ & HS) HX c Hc. unfold upwind_step. set (m := measure_of cells nodes c). assert (Hm : (0 < m)%R) by (apply MP; exact Hc). specialize (HS c Hc). fold m in HS.
  set (q := fun F => vdot U (outward cells nodes c F)). set (Y := value_beyond dim cells nodes labels bc vs X c).
  assert (HY : forall F, (lo <= Y F <= hi)%R). { intros F. unfold Y, value_beyond. destruct (beside cells c F) as [d|] eqn:E; [|apply boundary_within, HX, Hc]. unfold beside in E. apply find_some in E as (E & _). apply HX. apply in_range. exact E. }
  set (FS := facets (cell cells c)).
  assert (E : rsum (map (leaving dim cells nodes labels bc vs U X c) FS) = rsum (map (fun F => Rmax 0 (- q F) * (X c - Y F))%R FS)).
  { transitivity (rsum (map (fun F => X c * q F + Rmax 0 (- q F) * (X c - Y F))%R FS)).
    - apply rsum_map_ext. intros F _. unfold leaving. cbv zeta. fold (q F). fold (Y F). unfold Rmax. destruct (Rle_dec 0 (q F)), (Rle_dec 0 (- q F)); [replace (q F) with 0%R by lra; ring | ring | ring | exfalso; lra].
    - rewrite rsum_map_add, rsum_map_scal. pose proof (CL c Hc) as CLc. fold FS in CLc. change (rsum (map q FS) = 0%R) in CLc. change (map (fun x => q x) FS) with (map q FS). rewrite CLc. ring. }
  rewrite E. set (s := rsum (map (fun F => Rmax 0 (- q F)) FS)).
  assert (S0 : (0 <= s)%R) by (apply rsum_map_nonneg; intros; apply Rmax_l).
  assert (S1 : (s <= speed cells nodes U c)%R). { apply rsum_map_le. intros F _. fold (q F). unfold Rmax. destruct (Rle_dec 0 (- q F)); [rewrite <- Rabs_Ropp; apply Rle_abs | apply Rabs_pos]. }
  assert (S2 : (dt / m * s <= 1)%R). { apply (Rmult_le_reg_r m); [exact Hm|]. replace (dt / m * s * m)%R with (dt * s)%R by (field; lra). apply Rle_trans with (dt * speed cells nodes U c)%R; [apply Rmult_le_compat_l; assumption|]. eapply Rle_trans; [exact HS|]. apply Rmult_le_compat_r; lra. }
  assert (S3 : (0 <= dt / m)%R) by (apply Rmult_le_pos; [exact Hdt | left; apply Rinv_0_lt_compat; exact Hm]).
  assert (UB : (rsum (map (fun F => Rmax 0 (- q F) * (X c - Y F)) FS) <= s * (X c - lo))%R).
  { unfold s. rewrite Rmult_comm, <- rsum_map_scal. apply rsum_map_le. intros F _. rewrite (Rmult_comm (X c - lo)). apply Rmult_le_compat_l; [apply Rmax_l|]. pose proof (HY F). lra. }
  assert (LB : (- (s * (hi - X c)) <= rsum (map (fun F => Rmax 0 (- q F) * (X c - Y F)) FS))%R).
  { unfold s. rewrite <- Ropp_mult_distr_r_reverse, Rmult_comm, <- rsum_map_scal. apply rsum_map_le. intros F _. rewrite (Rmult_comm (- (hi - X c))). apply Rmult_le_compat_l; [apply Rmax_l|]. pose proof (HY F). lra. }
  set (T := rsum (map (fun F => Rmax 0 (- q F) * (X c - Y F))%R FS)) in *. pose proof (HX c Hc) as HXc. set (k := (dt / m)%R) in *. set (x := X c) in *.
  assert (K1 : (k * T <= k * (s * (x - lo)))%R) by (apply Rmult_le_compat_l; assumption). assert (K2 : (k * - (s * (hi - x)) <= k * T)%R) by (apply Rmult_le_compat_l; assumption).
  assert (K3 : (k * s * (x - lo) <= 1 * (x - lo))%R) by (apply Rmult_le_compat_r; lra). assert (K4 : (k * s * (hi - x) <= 1 * (hi - x))%R) by (apply Rmult_le_compat_r; lra).
  split; lra.
Qed.
Lemma run_within X n : (0 <= dt)%R -> (cfl <= 1)%R -> cfl_ok cells nodes U cfl dt -> (forall c, iscell cells c -> lo <= X c <= hi)%R -> forall c, iscell cells c -> (lo <= upwind dim cells nodes labels n bc vs U dt X c <= hi)%R.
Proof. intros H1 H2 H3 HX. induction n as [|n IH]; [exact HX|]. cbn [upwind]. apply step_within; assumption. Qed.
End Bounds.

Lemma NoDup_app_intro {A} (l l' : list A) : NoDup l -> NoDup l' -> (forall x, In x l -> ~ In x l') -> NoDup (l ++ l').
Proof.
  induction 1 as [|x l Nx ND IH]; intros ND' H; [exact ND'|]. cbn [app]. constructor.
  - rewrite in_app_iff. intros [X|X]; [contradiction | exact (H x (or_introl eq_refl) X)].
  - apply IH; [exact ND'|]. intros y Hy. apply H. right. exact Hy.
Qed.
(** conservation *)
Lemma involution_sum {T} (l : list T) (s : T -> T) (y : T -> R) : NoDup l -> (forall x, In x l -> In (s x) l /\ s (s x) = x /\ y (s x) = (- y x)%R) -> rsum (map y l) = 0%R.
Proof.
  intros ND H. assert (P : Permutation (map s l) l).
  { apply NoDup_Permutation; [|exact ND|].
    - apply NoDup_map_on; [|exact ND]. intros a b Ha Hb E. rewrite <- (proj1 (proj2 (H a Ha))), <- (proj1 (proj2 (H b Hb))), E. reflexivity.
    - intros x. rewrite in_map_iff. split; [intros (a & <- & Ha); apply H, Ha|]. intros Hx. exists (s x). split; apply H; exact Hx. }
  assert (E : rsum (map y l) = (- rsum (map y l))%R). { rewrite <- rsum_map_opp. rewrite <- (rsum_perm _ _ (Permutation_map y P)) at 1. rewrite map_map. apply rsum_map_ext. intros x Hx. apply H, Hx. } lra.
Qed.
Section Mass.
Context (dim : Z) (cells : list (list Z)) (nodes : list pt) (labels : list Z) (bc : list (loc * bctype)) (vs : list (loc * bcval)) (U : pt) (X : Z -> R).
Hypothesis VM : valid_mesh dim cells nodes labels.
Notation WF := (vm_mesh _ _ _ _ VM).
Definition inner_facets : list (Z * list Z) :=
  flat_map (fun c => map (pair c) (filter (fun F => match beside cells c F with None => false | Some _ => true end) (facets (cell cells c)))) (range (zlen cells)).
Lemma in_inner c F : In (c, F) inner_facets <-> has_facet dim cells c F /\ exists d, beside cells c F = Some d.
Proof.
  unfold inner_facets. rewrite in_flat_map. split.
  - intros (c' & Hc' & HI). apply in_map_iff in HI as (F' & E & HI). injection E as -> ->. apply filter_In in HI as (H1 & H2). apply in_range in Hc'. split; [apply (facets_iff dim cells nodes WF c F Hc'); exact H1|]. destruct (beside cells c F) as [d|]; [exists d; reflexivity | discriminate H2].
  - intros (HF & d & E). exists c. split; [apply in_range; exact (proj1 HF)|]. apply in_map. apply filter_In. split; [apply (facets_iff dim cells nodes WF c F (proj1 HF)); exact HF | rewrite E; reflexivity].
Qed.
Lemma inner_NoDup : NoDup inner_facets.
Proof.
  unfold inner_facets. assert (G : forall l, NoDup l -> (forall c, In c l -> iscell cells c) -> NoDup (flat_map (fun c => map (pair c) (filter (fun F => match beside cells c F with None => false | Some _ => true end) (facets (cell cells c)))) l)).
  { induction 1 as [|c l Nc ND IH]; intros HI; cbn [flat_map]; [constructor|]. apply NoDup_app_intro.
    - apply NoDup_map_on; [intros a b _ _ E; congruence|]. apply NoDup_filter. apply (facets_NoDup dim cells nodes WF). apply HI. left. reflexivity.
    - apply IH. intros c' H. apply HI. right. exact H.
    - intros p Hp Hp'. apply in_map_iff in Hp as (F & <- & _). apply in_flat_map in Hp' as (c' & Hc' & H). apply in_map_iff in H as (F' & E & _). injection E as -> _. contradiction. }
  apply G; [apply NoDup_range|]. intros c Hc. apply in_range. exact Hc.
Qed.
Lemma leaving_opposite c d F : has_facet dim cells c F -> beside cells c F = Some d -> leaving dim cells nodes labels bc vs U X d F = (- leaving dim cells nodes labels bc vs U X c F)%R.
Proof.
  intros HF E. pose proof (proj1 (beside_spec dim cells nodes WF (vm_proper _ _ _ _ VM) c F d HF) E) as (Hd & N).
  pose proof (proj2 (beside_spec dim cells nodes WF (vm_proper _ _ _ _ VM) d F c Hd) (conj HF (not_eq_sym N))) as E'.
  unfold leaving, value_beyond. cbv zeta. rewrite E, E'. rewrite (outward_two dim cells nodes WF (vm_nonflat _ _ _ _ VM) (vm_proper _ _ _ _ VM) c d F HF Hd (not_eq_sym N)).
  replace (vdot U (vscal (-1) (outward cells nodes c F))) with (- vdot U (outward cells nodes c F))%R by (unfold vdot, vscal; cbn [px py pz]; ring). rewrite <- upwind_opp. reflexivity.
Qed.
Lemma inner_zero : rsum (map (fun p => leaving dim cells nodes labels bc vs U X (fst p) (snd p)) inner_facets) = 0%R.
Proof.
  apply (involution_sum _ (fun p => (match beside cells (fst p) (snd p) with Some d => d | None => 0 end, snd p))); [exact inner_NoDup|]. intros (c, F) HI. apply in_inner in HI as (HF & d & E). cbn [fst snd]. rewrite E.
  pose proof (proj1 (beside_spec dim cells nodes WF (vm_proper _ _ _ _ VM) c F d HF) E) as (Hd & N). pose proof (proj2 (beside_spec dim cells nodes WF (vm_proper _ _ _ _ VM) d F c Hd) (conj HF (not_eq_sym N))) as E'.
  split; [apply in_inner; split; [exact Hd | exists c; exact E']|]. rewrite E'. split; [reflexivity|]. apply leaving_opposite; assumption.
Qed.
Lemma split_sum : rsum (map (fun c => rsum (map (leaving dim cells nodes labels bc vs U X c) (facets (cell cells c)))) (range (zlen cells))) =
  rsum (map (fun p => leaving dim cells nodes labels bc vs U X (fst p) (snd p)) (boundary_facets cells)).
Proof.
  rewrite <- Rplus_0_r. rewrite <- inner_zero. unfold inner_facets, boundary_facets. induction (range (zlen cells)) as [|c l IH]; cbn [map flat_map]; [cbn; ring|]. rewrite rsum_cons, IH, !map_app, !rsum_app.
  set (a := rsum (map _ (flat_map _ l))). set (b := rsum (map _ (flat_map _ l))).
  assert (E : rsum (map (leaving dim cells nodes labels bc vs U X c) (facets (cell cells c))) =
    (rsum (map (fun p => leaving dim cells nodes labels bc vs U X (fst p) (snd p)) (map (pair c) (filter (fun F => match beside cells c F with None => true | Some _ => false end) (facets (cell cells c))))) +
     rsum (map (fun p => leaving dim cells nodes labels bc vs U X (fst p) (snd p)) (map (pair c) (filter (fun F => match beside cells c F with None => false | Some _ => true end) (facets (cell cells c))))))%R).
  { rewrite !map_map. cbn [fst snd]. rewrite !rsum_filter, <- rsum_map_add. apply rsum_map_ext. intros F _. destruct (beside cells c F); ring. }
  rewrite E. ring.
Qed.
Lemma mass_step dt : (forall c, iscell cells c -> (0 < measure_of cells nodes c)%R) ->
  rsum (map (fun c => measure_of cells nodes c * upwind_step dim cells nodes labels bc vs U dt X c)%R (range (zlen cells))) =
  (rsum (map (fun c => measure_of cells nodes c * X c) (range (zlen cells))) - dt * rsum (map (fun p => leaving dim cells nodes labels bc vs U X (fst p) (snd p)) (boundary_facets cells)))%R.
Proof.
  intros MP. rewrite <- split_sum. unfold Rminus. rewrite Ropp_mult_distr_l, <- rsum_map_scal, <- rsum_map_add. apply rsum_map_ext. intros c Hc. apply in_range in Hc. unfold upwind_step. field. apply Rgt_not_eq, MP. exact Hc.
Qed.
End Mass.
