(** * Proofs_run32: the velocity field of a pressure and the transport of a density in it determine their result; balance, constants and bounds (C81, C82). *)
From Coq Require Import Reals Lra Psatz Permutation Sorted.
From Verif Require Import Py PyLemmas Model_part Spec_part Model_label Model_conn Spec_conn Proofs_conn1 Proofs_conn2 Model_geom Spec_geom Proofs_geom1 Proofs_geom2 Proofs_geom3
  Model_halo Spec_halo Model_interp Spec_interp Proofs_interp4 Proofs_interp5 Proofs_interp6 Spec_lsq Proofs_lsq Properties_lsq Model_fvm Spec_fvm Proofs_fvm1 Proofs_fvm2 Properties_fvm Model_bc Spec_bc Spec_bc3 Proofs_label Proofs_bc Proofs_bc2 Proofs_bc3 Properties_bc3 Model_domain Spec_domain Proofs_domain1 Proofs_domain4
  Model_comm Model_parallel Spec_parallel Proofs_parallel1 Proofs_parallel6 Properties_parallel Model_run Spec_run Proofs_run1 Proofs_run2 Proofs_run3 Proofs_run4 Proofs_run5 Proofs_run6 Spec_run2 Model_run2 Proofs_run7 Proofs_run8 Proofs_run9 Proofs_run10 Proofs_run11 Proofs_run12 Proofs_run13 Proofs_run14 Proofs_run15 Spec_run3 Proofs_run16
  Model_poisson Spec_poisson Proofs_poisson1 Proofs_poisson2 Proofs_poisson3 Spec_poisson2 Spec_poisson3 Proofs_poisson4 Proofs_poisson6 Proofs_poisson7 Proofs_poisson8 Proofs_poisson9 Proofs_poisson10 Model_run4 Spec_run6 Proofs_run30.
From Verif Require Model_linsys Spec_linsys.
Open Scope Z_scope.

Lemma cell_positive dim cells nodes labels c : valid_mesh dim cells nodes labels -> iscell cells c -> (0 < measure_of cells nodes c)%R.
Proof.
  intros VM Hc. pose proof (vm_nonflat _ _ _ _ VM c Hc) as H. pose proof (wm_dim _ _ _ (vm_mesh _ _ _ _ VM)) as HD. destruct (row_facts dim cells nodes (vm_mesh _ _ _ _ VM) c Hc) as (L & _). unfold measure_of, cell_measure. unfold nonflat in H.
  destruct (cell cells c) as [|a [|b [|d [|e [|f R]]]]] eqn:ER; unfold zlen in L; cbn [length] in L; try lia; cbn [map] in *.
  - destruct H as (_ & H). pose proof (Rabs_pos_lt _ H). lra.
  - destruct H as (_ & H). pose proof (Rabs_pos_lt _ H). lra.
Qed.
Lemma beside_iscell cells c F d : beside cells c F = Some d -> iscell cells d.
Proof. intros E. unfold beside in E. apply find_some in E as (E & _). apply in_range in E. exact E. Qed.
(** facets inside the mesh contribute nothing to a balance *)
Lemma sum_boundary_facets dim cells nodes labels (f : Z -> list Z -> R) : valid_mesh dim cells nodes labels ->
  (forall c d F, has_facet dim cells c F -> beside cells c F = Some d -> f d F = (- f c F)%R) ->
  rsum (map (fun c => rsum (map (f c) (facets (cell cells c)))) (range (zlen cells))) = rsum (map (fun p => f (fst p) (snd p)) (boundary_facets cells)).
Proof.
  intros VM OP. set (fl := fun p => f (fst p) (snd p)).
  assert (IZ : rsum (map fl (inner_facets cells)) = 0%R).
  { apply (involution_sum _ (fun p => (match beside cells (fst p) (snd p) with Some d => d | None => 0 end, snd p))); [exact (inner_NoDup dim cells nodes labels VM)|]. intros (c, F) HI. apply (in_inner dim cells nodes labels VM) in HI as (HF & d & EB). unfold fl. cbn [fst snd]. rewrite EB. destruct (beside_swap dim cells nodes labels VM c d F HF EB) as (Hd & NE & E').
    split; [apply (in_inner dim cells nodes labels VM); split; [exact Hd | exists c; exact E']|]. rewrite E'. split; [reflexivity|]. exact (OP c d F HF EB). }
  rewrite <- (Rplus_0_r (rsum (map fl (boundary_facets cells)))), <- IZ. unfold inner_facets, boundary_facets. clear IZ OP. induction (range (zlen cells)) as [|c l IH]; cbn [map flat_map]; [cbn; ring|]. rewrite rsum_cons, IH, !map_app, !rsum_app. set (a := rsum (map _ (flat_map _ l))). set (b := rsum (map _ (flat_map _ l))).
  rewrite !map_map. unfold fl at 1 2. cbn [fst snd]. rewrite !rsum_filter.
  replace (rsum (map (f c) (facets (cell cells c)))) with (rsum (map (fun x => if match beside cells c x with Some _ => false | None => true end then f c x else 0%R) (facets (cell cells c))) + rsum (map (fun x => if match beside cells c x with Some _ => true | None => false end then f c x else 0%R) (facets (cell cells c))))%R; [ring|].
  rewrite <- rsum_map_add. apply rsum_map_ext. intros F _. destruct (beside cells c F); ring.
Qed.
Lemma vneg_inj a b : Spec_linsys.vneg a = Spec_linsys.vneg b -> a = b.
Proof. destruct a as [a1 a2 a3], b as [b1 b2 b3]. unfold Spec_linsys.vneg. cbn [px py pz]. intros E. injection E as E1 E2 E3. f_equal; lra. Qed.

Lemma positive_step (f g : Z -> R) n : (forall c, 0 <= c < n -> (0 <= f c)%R /\ (0 < g c)%R) -> exists d, (0 < d)%R /\ (d <= 1000000)%R /\ forall c, 0 <= c < n -> (d * f c <= g c)%R.
Proof.
  destruct (Z_lt_dec n 0) as [L|L]; [intros _; exists 1%R; split; [lra|]; split; [lra|]; intros c Hc; lia|]. revert L. intros L. assert (Hn : 0 <= n) by lia. clear L. revert n Hn. apply (natlike_ind (fun n => (forall c, 0 <= c < n -> (0 <= f c)%R /\ (0 < g c)%R) -> exists d, (0 < d)%R /\ (d <= 1000000)%R /\ forall c, 0 <= c < n -> (d * f c <= g c)%R)).
  - intros _. exists 1%R. split; [lra|]. split; [lra|]. intros c Hc. lia.
  - intros n Hn IH H. destruct IH as (d & D1 & D2 & D3); [intros c Hc; apply H; lia|]. destruct (H n ltac:(lia)) as (F0 & G0). set (e := (g n / (f n + 1))%R).
    assert (He : (0 < e)%R) by (apply Rdiv_lt_0_compat; lra). assert (He2 : (e * f n <= g n)%R). { unfold e, Rdiv. rewrite Rmult_assoc. apply Rle_trans with (g n * 1)%R; [|lra]. apply Rmult_le_compat_l; [lra|]. apply (Rmult_le_reg_l (f n + 1)); [lra|]. rewrite <- Rmult_assoc, Rinv_r, Rmult_1_l by lra. lra. }
    exists (Rmin d e). split; [apply Rmin_glb_lt; assumption|]. split; [eapply Rle_trans; [apply Rmin_l | exact D2]|]. intros c Hc. destruct (H c ltac:(lia)) as (Fc & _). destruct (Z.eq_dec c n) as [->|NE].
    + eapply Rle_trans; [apply Rmult_le_compat_r; [exact Fc | apply Rmin_r] | exact He2].
    + eapply Rle_trans; [apply Rmult_le_compat_r; [exact Fc | apply Rmin_l] | apply D3; lia].
Qed.

Section Mesh32.
Context (dim : Z) (cells : list (list Z)) (nodes : list pt) (labels : list Z).
Hypothesis VM : valid_mesh dim cells nodes labels.
Notation WF := (vm_mesh _ _ _ _ VM).
Notation same X X' := (forall c, iscell cells c -> X c = X' c).
Notation samev V V' := (forall c F, iscell cells c -> In F (facets (cell cells c)) -> V c F = V' c F).
Lemma facet_has c F : iscell cells c -> In F (facets (cell cells c)) -> has_facet dim cells c F.
Proof. intros Hc HF. exact (proj1 (facets_iff dim cells nodes WF c F Hc) HF). Qed.
Lemma has_facet_in c F : has_facet dim cells c F -> In F (facets (cell cells c)).
Proof. intros HF. exact (proj2 (facets_iff dim cells nodes WF c F (proj1 HF)) HF). Qed.

(** *** the velocity of a pressure *)
Section Pressure.
Context (bc : list (loc * bctype)) (vs : list (loc * bcval)).
Notation velocity_of := (velocity_of dim cells nodes labels bc vs).
Notation solution_slope := (solution_slope dim cells nodes labels bc vs).
Lemma solution_slope_same X X' N N' c F s : same X X' -> has_facet dim cells c F -> (forall g, In g (cell cells c) -> N g = N' g) -> solution_slope X N c F s -> solution_slope X' N' c F s.
Proof.
  intros EX HF EN (G & A & B). assert (I : forall g, In g F -> In g (cell cells c)) by apply HF. split; [exact G|]. split.
  - intros a b Ha Hb HK. rewrite (A a b Ha Hb HK). unfold shown_value. destruct (node_fixed nodes labels bc vs a), (node_fixed nodes labels bc vs b); rewrite ?EN by auto; reflexivity.
  - destruct (beside cells c F) as [d|] eqn:E.
    + rewrite B, (EX d (beside_iscell _ _ _ _ E)), (EX c (proj1 HF)). reflexivity.
    + rewrite B. unfold dirichlet_flux. rewrite (EX c (proj1 HF)). reflexivity.
Qed.
Lemma velocity_unique P P' V V' : sides_closed dim cells nodes labels bc vs -> same P P' -> velocity_of P V -> velocity_of P' V' -> samev V V'.
Proof.
  intros SD EP (N & HN & HV) (N' & HN' & HV') c F Hc HF. pose proof (facet_has c F Hc HF) as HF'. apply vneg_inj.
  assert (EN : forall g, In g (cell cells c) -> N g = N' g) by (intros g Hg; exact (nodal_unique _ _ _ _ _ _ _ _ _ _ (nodal_same dim cells nodes labels bc vs VM P P' EP g _ (HN c g Hc Hg)) (HN' c g Hc Hg))).
  apply (solution_slope_unique dim cells nodes labels bc vs VM P' N' c F); [exact HF' | | exact (solution_slope_same P P' N N' c F _ EP HF' EN (HV c F Hc HF)) | exact (HV' c F Hc HF)].
  destruct (beside cells c F) as [d|] eqn:E; [left; discriminate|]. right. destruct (facet_fixed dim nodes labels bc vs F) as [y|] eqn:EF; [right|left; reflexivity].
  intros g Hg. apply (SD c F g); [|rewrite EF; discriminate | exact Hg]. unfold boundary_facets. apply in_flat_map. exists c. split; [apply in_range; exact Hc|]. apply in_map_iff. exists F. split; [reflexivity|]. apply filter_In. rewrite E. auto.
Qed.
(** the velocity at the facet between two cells is the same for both *)
Lemma velocity_swap P V c d F : velocity_of P V -> has_facet dim cells c F -> beside cells c F = Some d -> V d F = V c F.
Proof.
  intros (N & HN & HV) HF E. destruct (beside_swap dim cells nodes labels VM c d F HF E) as (Hd & NE & E'). apply vneg_inj.
  apply (solution_slope_unique dim cells nodes labels bc vs VM P N d F); [exact Hd | left; rewrite E'; discriminate | exact (HV d F (proj1 Hd) (has_facet_in d F Hd)) | exact (solution_slope_swap dim cells nodes labels bc vs VM P N c d F _ HF E (HV c F (proj1 HF) (has_facet_in c F HF)))].
Qed.
(** its divergence is minus the right hand side *)
Lemma velocity_divergence P V f : sides_closed dim cells nodes labels bc vs -> poisson dim cells nodes labels bc vs f P -> velocity_of P V ->
  forall c, iscell cells c -> rsum (map (fun F => vdot (V c F) (outward cells nodes c F)) (facets (cell cells c))) = (- (measure_of cells nodes c * f c))%R.
Proof.
  intros SD HP (N & HN & HV) c Hc. pose proof (slope_laplacian dim cells nodes labels bc vs VM P N (fun F => Spec_linsys.vneg (V c F)) c SD HN Hc (fun F HF => HV c F Hc HF)) as LP.
  pose proof (laplacian_unique dim cells nodes labels bc vs VM P P c _ _ (fun _ _ => eq_refl) Hc LP (HP c Hc)) as EL. pose proof (cell_positive dim cells nodes labels c VM Hc) as MP.
  rewrite <- EL, <- Rmult_assoc, Rinv_r, Rmult_1_l by lra. rewrite <- rsum_map_opp. f_equal. apply map_ext. intros F. unfold Spec_linsys.vneg, vdot. cbn [px py pz]. ring.
Qed.
Lemma velocity_same P P' V : same P P' -> velocity_of P V -> velocity_of P' V.
Proof.
  intros EP (N & HN & HV). exists N. split.
  - intros c k Hc Hk. exact (nodal_same dim cells nodes labels bc vs VM _ P' EP k _ (HN c k Hc Hk)).
  - intros c F Hc HF. exact (solution_slope_same _ P' N N c F _ EP (facet_has c F Hc HF) (fun _ _ => eq_refl) (HV c F Hc HF)).
Qed.
End Pressure.

(** *** the time step *)
Lemma mean_same V V' : samev V V' -> forall c, iscell cells c -> mean_velocity dim cells V c = mean_velocity dim cells V' c.
Proof. intros E c Hc. unfold mean_velocity. do 2 f_equal. apply map_ext_in. intros F HF. exact (E c F Hc HF). Qed.
Lemma cfl_same V V' K cfl dt : samev V V' -> driven_cfl dim cells nodes V K cfl dt -> driven_cfl dim cells nodes V' K cfl dt.
Proof. intros E (A & B). split; [exact A|]. intros c Hc. rewrite <- (mean_same V V' E c Hc). exact (B c Hc). Qed.
Lemma driven_unique V V' K cfl dt dt' : samev V V' -> largest_driven dim cells nodes V K cfl dt -> largest_driven dim cells nodes V' K cfl dt' -> dt = dt'.
Proof.
  intros E (A & B) (A' & B'). apply Rle_antisym; [apply B'; exact (cfl_same V V' K cfl dt E A)|]. apply B. apply (cfl_same V' V); [|exact A']. intros c F Hc HF. symmetry. exact (E c F Hc HF).
Qed.

(** *** the density *)
Context (bc : list (loc * bctype)) (vs : list (loc * bcval)).
Notation step := (driven_step dim cells nodes labels bc vs).
Notation recon := (reconstruction dim cells nodes labels bc vs).
Lemma driven_step_unique order V V' K dt X X' Y Y' : samev V V' -> same X X' -> step order V K dt X Y -> step order V' K dt X' Y' -> same Y Y'.
Proof.
  intros EV EX (S & P & N & G & Rc & E) (S' & P' & N' & G' & R' & E') c Hc. destruct (reconstruction_unique dim cells nodes labels bc vs VM _ _ _ _ _ _ _ _ _ _ EX Rc R') as (E1 & _ & E3). rewrite (E c Hc), (E' c Hc), (EX c Hc). do 3 f_equal. apply map_ext_in. intros F HF.
  rewrite (EV c F Hc HF). apply entering_same; [exact EX | exact E1 | exact Hc | apply E3; assumption].
Qed.
(** with the balance through the boundary *)
Lemma driven_mass order V K dt X Y S P N G : (forall c d F, has_facet dim cells c F -> beside cells c F = Some d -> V d F = V c F) -> recon X S P N G -> step order V K dt X Y ->
  rsum (map (fun c => measure_of cells nodes c * Y c)%R (range (zlen cells))) =
  (rsum (map (fun c => measure_of cells nodes c * X c) (range (zlen cells))) + dt * rsum (map (fun p => entering dim cells nodes labels bc vs order (V (fst p) (snd p)) K X S P G (fst p) (snd p)) (boundary_facets cells)))%R.
Proof.
  intros SW Rc (S' & P' & N' & G' & R' & E).
  assert (E1 : forall c, iscell cells c -> Y c = (X c + dt / measure_of cells nodes c * rsum (map (fun F => entering dim cells nodes labels bc vs order (V c F) K X S P G c F) (facets (cell cells c))))%R).
  { intros c Hc. rewrite (E c Hc). do 3 f_equal. apply map_ext_in. intros F HF. destruct (reconstruction_unique dim cells nodes labels bc vs VM X X _ _ _ _ _ _ _ _ (fun _ _ => eq_refl) R' Rc) as (Q1 & _ & Q3). apply entering_same; [reflexivity | exact Q1 | exact Hc | apply Q3; assumption]. }
  rewrite <- (sum_boundary_facets dim cells nodes labels (fun c F => entering dim cells nodes labels bc vs order (V c F) K X S P G c F) VM), <- rsum_map_scal, <- rsum_map_add.
  - apply rsum_map_ext. intros c Hc. apply in_range in Hc. rewrite (E1 c Hc). pose proof (cell_positive dim cells nodes labels c VM Hc). field. lra.
  - intros c d F HF EB. rewrite (SW c d F HF EB). exact (entering_opposite dim cells nodes labels bc vs VM order (V c F) K X S P N G c d F Rc HF EB).
Qed.
Lemma reconstruction_same X X' S P N G : same X X' -> recon X S P N G -> recon X' S P N G.
Proof.
  intros EX (A1 & A2 & A3). split; [|split].
  - intros c Hc. destruct (A1 c Hc) as (a & b). split; [exact (slope_same dim cells nodes labels bc vs VM X X' EX c _ Hc a) | exact (limiter_same dim cells nodes labels bc vs X X' _ c _ EX Hc b)].
  - intros c g Hc Hg. exact (nodal_same dim cells nodes labels bc vs VM X X' EX g _ (A2 c g Hc Hg)).
  - intros c F Hc HF. exact (facet_same dim cells nodes labels bc vs X X' EX N N c F _ (facet_has c F Hc HF) (fun _ _ => eq_refl) (A3 c F Hc HF)).
Qed.
(** what enters a cell holding the same value as everything around *)
Lemma entering_constant k order U K X S P N G : dirichlet_within k k bc vs -> (forall c, iscell cells c -> X c = k) -> recon X S P N G ->
  forall c F, iscell cells c -> In F (facets (cell cells c)) -> entering dim cells nodes labels bc vs order U K X S P G c F = (- k * vdot U (outward cells nodes c F))%R.
Proof.
  intros HD HX (A1 & A2 & A3) c F Hc HF.
  assert (BC : forall F, boundary_value dim nodes labels bc vs F k = k) by (intros F0; apply (boundary_constant dim nodes labels bc vs k HD F0)).
  assert (BK : forall c F, iscell cells c -> value_beyond dim cells nodes labels bc vs X c F = k). { intros d F0 Hd. unfold Spec_run.value_beyond. destruct (beside cells d F0) as [e|] eqn:EB; [|rewrite (HX d Hd); apply BC]. apply HX, (beside_iscell _ _ _ _ EB). }
  assert (MK : forall g q, In q (map (Spec_run2.mirrored dim cells nodes labels bc vs X) (boundary_at cells g)) -> snd q = k). { intros g q Hq. apply in_map_iff in Hq as ((d, F0) & <- & Hq). apply (in_boundary_at dim cells nodes labels VM) in Hq as (Hq & _). unfold Spec_run2.mirrored. cbn [fst snd]. rewrite (HX d (proj1 (proj1 Hq))). apply BC. }
  assert (SZ : forall d, iscell cells d -> S d = vzero).
  { intros d Hd. destruct (A1 d Hd) as (B & _). unfold cell_slope in B. rewrite (HX d Hd) in B. refine (slope_constant dim _ _ _ _ _ B). intros q Hq. unfold around_cell in Hq. apply in_app_iff in Hq as [Hq|Hq].
    - apply in_map_iff in Hq as (e & <- & He). apply in_neighbours in He as (He & _). apply HX, He.
    - apply in_flat_map in Hq as (g & _ & Hq). exact (MK g q Hq). }
  assert (NK : forall g, In g (cell cells c) -> N g = k).
  { intros g Hg. destruct (A2 c g Hc Hg) as (c0 & s & B & ->). assert (HQ : forall q, In q (around_node dim cells nodes labels bc vs X g) -> snd q = k).
    { intros q Hq. unfold around_node in Hq. apply in_app_iff in Hq as [Hq|Hq]; [|exact (MK g q Hq)]. apply in_map_iff in Hq as (e & <- & He). apply in_touching in He as (He & _). apply HX, He. }
    destruct (fit_constant dim k _ _ _ HQ B) as (-> & ->). unfold affine. rewrite vdot_zero_l. ring. }
  pose proof (facet_has c F Hc HF) as HF'.
  assert (GZ : G c F = vzero).
  { apply (facet_slope_unique dim cells nodes labels bc vs VM X N c F); [exact HF' | apply A3; assumption|]. split; [intros _; reflexivity|]. split.
    - intros a b Ha Hb. rewrite vdot_zero_l, !NK by (apply HF'; assumption). ring.
    - rewrite vdot_zero_l, (BK c F Hc), (HX c Hc). ring. }
  unfold entering, diffused, carried, reconstructed, rise. cbv zeta. rewrite GZ, (SZ c Hc), (HX c Hc), vdot_zero_l.
  replace (vdot (P3 (px K * px vzero) (py K * py vzero) (pz K * pz vzero)) (outward cells nodes c F)) with 0%R by (unfold vdot, vzero; cbn [px py pz]; ring).
  destruct (Rle_dec 0 _); [ring|]. destruct (beside cells c F) as [d|] eqn:EB; [|rewrite BC; ring]. apply beside_iscell in EB. rewrite (SZ d EB), (HX d EB), vdot_zero_l. ring.
Qed.
Lemma driven_constant k order V K dt X Y : dirichlet_within k k bc vs -> (forall c, iscell cells c -> rsum (map (fun F => vdot (V c F) (outward cells nodes c F)) (facets (cell cells c))) = 0%R) ->
  (forall c, iscell cells c -> X c = k) -> step order V K dt X Y -> forall c, iscell cells c -> Y c = k.
Proof.
  intros HD CL HX (S & P & N & G & Rc & E) c Hc. rewrite (E c Hc), (HX c Hc).
  rewrite (rsum_map_ext _ (fun F => - k * vdot (V c F) (outward cells nodes c F))%R) by (intros F HF; exact (entering_constant k order (V c F) K X S P N G HD HX Rc c F Hc HF)).
  rewrite rsum_map_scal, (CL c Hc). ring.
Qed.
(** first order, no diffusion, no more entering a cell than its volume: values stay in their range *)
Lemma driven_within lo hi V dt X Y : dirichlet_within lo hi bc vs -> (0 <= dt)%R -> (forall c, iscell cells c -> rsum (map (fun F => vdot (V c F) (outward cells nodes c F)) (facets (cell cells c))) = 0%R) ->
  (forall c, iscell cells c -> dt * rsum (map (fun F => Rmax 0 (- vdot (V c F) (outward cells nodes c F))) (facets (cell cells c))) <= measure_of cells nodes c)%R ->
  (forall c, iscell cells c -> lo <= X c <= hi)%R -> step 1 V vzero dt X Y -> forall c, iscell cells c -> (lo <= Y c <= hi)%R.
Proof.
  intros HD Hdt CL HI HX (S & P & N & G & _ & E) c Hc. rewrite (E c Hc). set (m := measure_of cells nodes c). pose proof (cell_positive dim cells nodes labels c VM Hc) as Hm. fold m in Hm. specialize (HI c Hc). fold m in HI. specialize (CL c Hc).
  set (q := fun F => vdot (V c F) (outward cells nodes c F)) in *. set (Zb := value_beyond dim cells nodes labels bc vs X c).
  assert (HZ : forall F, (lo <= Zb F <= hi)%R). { intros F. unfold Zb, value_beyond. destruct (beside cells c F) as [d|] eqn:EB; [apply HX, (beside_iscell _ _ _ _ EB)|]. apply (boundary_within dim nodes labels bc vs lo hi HD F), HX, Hc. }
  set (FS := facets (cell cells c)) in *.
  assert (EE : rsum (map (fun F => entering dim cells nodes labels bc vs 1 (V c F) vzero X S P G c F) FS) = rsum (map (fun F => Rmax 0 (- q F) * (Zb F - X c))%R FS)).
  { transitivity (rsum (map (fun F => - X c * q F + Rmax 0 (- q F) * (Zb F - X c))%R FS)).
    - apply rsum_map_ext. intros F _. unfold entering, diffused, carried, reconstructed. cbv zeta. fold (q F). change (1 - 1) with 0.
      replace (vdot (P3 (px vzero * px (G c F)) (py vzero * py (G c F)) (pz vzero * pz (G c F))) (outward cells nodes c F)) with 0%R by (unfold vdot, vzero; cbn [px py pz]; ring).
      unfold Rmax, Zb, value_beyond. destruct (Rle_dec 0 (q F)), (Rle_dec 0 (- q F)); try (destruct (beside cells c F); ring); [replace (q F) with 0%R by lra; ring | exfalso; lra].
    - rewrite rsum_map_add, rsum_map_scal. change (rsum (map q FS) = 0%R) in CL. change (map (fun x => q x) FS) with (map q FS). rewrite CL. ring. }
  rewrite EE. clear EE. set (I0 := rsum (map (fun F => Rmax 0 (- q F)) FS)) in *.
  assert (B1 : (I0 * (lo - X c) <= rsum (map (fun F => Rmax 0 (- q F) * (Zb F - X c)) FS) <= I0 * (hi - X c))%R).
  { unfold I0. rewrite !(Rmult_comm (rsum _)), <- !rsum_map_scal. split; apply rsum_map_le; intros F _; pose proof (Rmax_l 0 (- q F)); specialize (HZ F); nra. }
  set (T := rsum (map (fun F => Rmax 0 (- q F) * (Zb F - X c))%R FS)) in *. specialize (HX c Hc). assert (H0 : (0 <= dt * I0 / m)%R) by (apply Rmult_le_pos; [apply Rmult_le_pos; [exact Hdt|]; apply rsum_map_nonneg; intros F _; apply Rmax_l | left; apply Rinv_0_lt_compat; exact Hm]).
  assert (H1 : (dt * I0 / m <= 1)%R). { apply (Rmult_le_reg_r m); [exact Hm|]. unfold Rdiv. rewrite Rmult_assoc, Rinv_l, Rmult_1_r, Rmult_1_l by lra. exact HI. }
  set (k := (dt / m)%R). assert (Hk : (0 <= k)%R) by (apply Rmult_le_pos; [exact Hdt | left; apply Rinv_0_lt_compat; exact Hm]). replace (dt * I0 / m)%R with (k * I0)%R in H0, H1 by (unfold k; field; lra).
  assert (B2 : (k * (I0 * (lo - X c)) <= k * T <= k * (I0 * (hi - X c)))%R) by (destruct B1; split; apply Rmult_le_compat_l; assumption).
  assert (B3 : (k * I0 * (X c - lo) <= 1 * (X c - lo))%R) by (apply Rmult_le_compat_r; lra). assert (B4 : (k * I0 * (hi - X c) <= 1 * (hi - X c))%R) by (apply Rmult_le_compat_r; lra). split; lra.
Qed.

(** *** the loop *)
Context (bcp : list (loc * bctype)) (vsp : list (loc * bcval)) (spread : bool) (order : Z) (K : pt) (cfl tfinal : R).
Notation flow := (darcy_flow dim cells nodes labels bc vs bcp vsp spread order K cfl tfinal).
Lemma flow_unique P P' X X' : sides_closed dim cells nodes labels bcp vsp -> (forall k, same (P k) (P' k)) -> same X X' ->
  forall n t Y t' Y', flow P X n t Y -> flow P' X' n t' Y' -> t = t' /\ same Y Y'.
Proof.
  intros SD EP EX. induction n as [|n IH]; intros t Y t' Y' H H'.
  - inversion H; subst. inversion H'; subst. split; [reflexivity|]. intros c Hc. rewrite H0, H1 by exact Hc. exact (EX c Hc).
  - inversion H; subst. inversion H'; subst. match goal with A : flow P X n _ _, B : flow P' X' n _ _ |- _ => destruct (IH _ _ _ _ A B) as (-> & EY) end.
    match goal with A : velocity_of _ _ _ _ _ _ (P n) ?v, B : velocity_of _ _ _ _ _ _ (P' n) ?v' |- _ => pose proof (velocity_unique bcp vsp (P n) (P' n) v v' SD (EP n) A B) as EV end.
    match goal with A : largest_driven _ _ _ _ _ _ ?d, B : largest_driven _ _ _ _ _ _ ?d' |- _ => tryif constr_eq d d' then fail else rewrite (driven_unique _ _ K cfl d d' EV A B) in * end.
    split; [reflexivity|]. match goal with A : driven_step _ _ _ _ _ _ _ _ _ _ _ Y, B : driven_step _ _ _ _ _ _ _ _ _ _ _ Y' |- _ => exact (driven_step_unique order _ _ _ _ _ _ _ _ EV EY A B) end.
Qed.
Lemma flow_before P X n t Y : flow P X n t Y -> forall m, (m < n)%nat -> exists t' Y', flow P X m t' Y' /\ (t' < tfinal)%R.
Proof.
  induction 1 as [Y E|n t Y V dt Y' FL IH Ht HV HL HS]; intros m Hm; [lia|]. destruct (Nat.eq_dec m n) as [->|NE]; [exists t, Y; auto | apply IH; lia].
Qed.
(** the loop ends in one way *)
Lemma flow_end P P' X X' n t Y n' t' Y' : sides_closed dim cells nodes labels bcp vsp -> (forall k, same (P k) (P' k)) -> same X X' -> flow P X n t Y -> (tfinal <= t)%R -> flow P' X' n' t' Y' -> (tfinal <= t')%R -> n = n' /\ t = t' /\ same Y Y'.
Proof.
  intros SD EP EX F H F' H'. assert (EN : n = n').
  { destruct (Nat.lt_trichotomy n n') as [L|[E|L]]; [|exact E|]; exfalso.
    - destruct (flow_before P' X' n' t' Y' F' n L) as (t2 & Y2 & F2 & B). destruct (flow_unique P P' X X' SD EP EX n t Y t2 Y2 F F2). lra.
    - destruct (flow_before P X n t Y F n' L) as (t2 & Y2 & F2 & B). destruct (flow_unique P P' X X' SD EP EX n' t2 Y2 t' Y' F2 F'). lra. }
  subst n'. split; [reflexivity|]. exact (flow_unique P P' X X' SD EP EX n t Y t' Y' F F').
Qed.
(** steps of one length while the pressure stays the same *)
Lemma flow_time P Pc V dt X : sides_closed dim cells nodes labels bcp vsp -> (forall k, same (P k) Pc) -> velocity_of dim cells nodes labels bcp vsp Pc V -> largest_driven dim cells nodes V K cfl dt -> forall n t Y, flow P X n t Y -> t = (INR n * dt)%R.
Proof.
  intros SD EP HV HL n t Y. induction 1 as [Y E|n t Y V' dt' Y' FL IH Ht HV' HL' HS]; [cbn; ring|]. rewrite S_INR, IH. rewrite (driven_unique V' V K cfl dt' dt (velocity_unique bcp vsp (P n) Pc V' V SD (EP n) HV' HV) HL' HL). ring.
Qed.
Lemma flow_constant k P X : sides_closed dim cells nodes labels bcp vsp -> dirichlet_within k k bc vs -> (forall n, poisson dim cells nodes labels bcp vsp (fun _ => 0%R) (P n)) -> (forall c, iscell cells c -> X c = k) ->
  forall n t Y, flow P X n t Y -> forall c, iscell cells c -> Y c = k.
Proof.
  intros SD HD HP HX n t Y. induction 1 as [Y E|n t Y V' dt' Y' FL IH Ht HV' HL' HS]; intros c Hc; [rewrite E by exact Hc; apply HX, Hc|].
  refine (driven_constant k order V' _ dt' Y Y' HD _ IH HS c Hc). intros d Hd. rewrite (velocity_divergence bcp vsp (P n) V' _ SD (HP n) HV' d Hd). ring.
Qed.
Lemma flow_same P P' X n t Y : (forall k, same (P k) (P' k)) -> flow P X n t Y -> flow P' X n t Y.
Proof.
  intros EP. induction 1 as [Y E|n t Y V dt Y' FL IH Ht HV HL HS]; [apply flow_start; exact E|]. apply (flow_turn dim cells nodes labels bc vs bcp vsp spread order K cfl tfinal P' X n t Y V dt Y' IH Ht); [exact (velocity_same bcp vsp _ _ V (EP n) HV) | exact HL | exact HS].
Qed.
End Mesh32.
