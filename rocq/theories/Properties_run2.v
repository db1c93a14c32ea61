(** * Properties_run2: node interpolation, gradients and the complete transport computation on any number of ranks (C70-C73). *)
From Coq Require Import Reals Lra Permutation Sorted.
From Verif Require Import Py PyLemmas Model_part Spec_part Model_label Model_conn Spec_conn Model_geom Spec_geom Proofs_geom1 Model_interp Spec_interp Spec_lsq Model_fvm Spec_fvm Proofs_fvm1 Proofs_fvm2 Model_bc Spec_bc
  Model_domain Spec_domain Model_parallel Spec_parallel Properties_geom Properties_parallel Model_comm Model_run Spec_run Proofs_run1 Proofs_run3 Proofs_run5 Proofs_run6 Properties_run Spec_run2 Model_run2 Proofs_run7 Proofs_run13 Proofs_run14 Proofs_run15 Spec_run3 Proofs_run16.
Open Scope Z_scope.

Ltac regular_setup f32 RG st E RP CS HX :=
  let VM := fresh "VM" in let PL := fresh "PL" in let SC := fresh "SC" in let SP := fresh "SP" in let VS := fresh "VS" in let BV := fresh "BV" in let CW := fresh "CW" in
  pose proof RG as [VM PL SC SP VS BV CW]; destruct (C68_parallel_setup f32 _ _ _ _ _ _ _ VM VS) as (st & E & RP & CS & HX).

(** Variables exist: any field can be put on the ranks. *)
Theorem C70_any_field : forall f32 dim SIZE cells nodes labels npart0 epart bc vs X,
  regular dim SIZE cells nodes labels npart0 epart bc vs ->
  exists st, setup f32 dim SIZE cells nodes labels npart0 epart = Ok st /\ exists l, history bc vs SIZE st l /\ holding SIZE st X l.
Proof.
  intros f32 dim SIZE cells nodes labels npart0 epart bc vs X RG. regular_setup f32 RG st E RP CS HX. exists st. split; [exact E|].
  set (W := map (fun r => map (fun c => X (gcell (domain_of (se_domains st) r) c)) (range (zlen (dm_loctoglob (domain_of (se_domains st) r))))) (range SIZE)). pose proof (vs_size _ _ _ _ _ _ VS) as S1.
  apply (history_any dim SIZE cells nodes labels npart0 epart st VM VS RP CS bc vs BV X W).
  split; [unfold W; rewrite zlen_map, zlen_range; lia|]. intros r Hr. unfold W. rewrite (nthZ_map _ 0) by (rewrite zlen_range; lia). rewrite nthZ_range by lia. pose proof (zlen_nonneg (dm_loctoglob (domain_of (se_domains st) r))). split; [rewrite zlen_map, zlen_range; lia|].
  intros c Hc. unfold iscell_of in Hc. rewrite (nthZ_map _ 0) by (rewrite zlen_range; lia). rewrite nthZ_range by lia. reflexivity.
Qed.
(** C70.  After any history of the variable, interpolate_celltonode succeeds, leaves the cells as they are, and gives every node of every rank the value at
    the node of the best affine fit to the data around it in the mesh: the cells with this node, wherever they are, and the mirror images behind the boundary. *)
Theorem C70_interpolation : forall f32 dim SIZE cells nodes labels npart0 epart bc vs,
  regular dim SIZE cells nodes labels npart0 epart bc vs ->
  exists st, setup f32 dim SIZE cells nodes labels npart0 epart = Ok st /\
    forall l X, history bc vs SIZE st l -> holding SIZE st X l ->
    exists l' N, interpolate_celltonode SIZE st l = Ok l' /\ holding SIZE st X l' /\ node_field SIZE st N l' /\
      forall c g, iscell cells c -> In g (cell cells c) -> nodal_value dim cells nodes labels bc vs X g (N g).
Proof.
  intros f32 dim SIZE cells nodes labels npart0 epart bc vs RG. regular_setup f32 RG st E RP CS HX. exists st. split; [exact E|]. intros l X H0 H1.
  exact (interpolated dim SIZE cells nodes labels npart0 epart st VM PL VS RP SC CS HX bc vs BV CW SP X l H0 H1).
Qed.
Print Assumptions C70_interpolation.
(** The value at a node is the same on every rank that has the node, and the same for every number of ranks and every distribution of the cells. *)
Theorem C70_same_result : forall f32 dim cells nodes labels bc vs SIZE npart0 epart SIZE' npart0' epart',
  regular dim SIZE cells nodes labels npart0 epart bc vs -> regular dim SIZE' cells nodes labels npart0' epart' bc vs ->
  exists st st', setup f32 dim SIZE cells nodes labels npart0 epart = Ok st /\ setup f32 dim SIZE' cells nodes labels npart0' epart' = Ok st' /\
    forall l l' X, history bc vs SIZE st l -> history bc vs SIZE' st' l' -> holding SIZE st X l -> holding SIZE' st' X l' ->
    exists m m' N, interpolate_celltonode SIZE st l = Ok m /\ interpolate_celltonode SIZE' st' l' = Ok m' /\ node_field SIZE st N m /\ node_field SIZE' st' N m'.
Proof.
  intros f32 dim cells nodes labels bc vs SIZE npart0 epart SIZE' npart0' epart' RG RG'.
  destruct (C70_interpolation f32 _ _ _ _ _ _ _ _ _ RG) as (st & E & H). destruct (C70_interpolation f32 _ _ _ _ _ _ _ _ _ RG') as (st' & E' & H'). exists st, st'. split; [exact E|]. split; [exact E'|]. intros l l' X H1 H1' H2 H2'.
  destruct (H l X H1 H2) as (m & N & EM & _ & NF & NV). destruct (H' l' X H1' H2') as (m' & N' & EM' & _ & NF' & NV'). exists m, m', N. split; [exact EM|]. split; [exact EM'|]. split; [exact NF|].
  destruct (C68_parallel_setup f32 _ _ _ _ _ _ _ (rg_mesh _ _ _ _ _ _ _ _ _ RG') (rg_split _ _ _ _ _ _ _ _ _ RG')) as (st2 & E2 & RP & _). rewrite E' in E2. injection E2 as <-.
  intros r Hr D. destruct (NF' r Hr) as (v & n & G1 & G2 & L & Q). exists v, n. split; [exact G1|]. split; [exact G2|]. split; [exact L|]. intros k Hk. fold D in Q. rewrite (Q k Hk).
  destruct (pa_nodes _ _ _ _ _ _ _ (rp_part _ _ _ _ _ _ _ RP r Hr)) as (_ & HI). destruct (proj1 (HI (gnode D k)) (nthZ_In _ _ _ Hk)) as (c & Hc & _ & Hg). exact (nodal_unique _ _ _ _ _ _ _ _ _ _ (NV' c _ Hc Hg) (NV c _ Hc Hg)).
Qed.
Print Assumptions C70_same_result.

(** C71.  compute_cell_gradient: the best slope of the data around each cell of the mesh and the limiter, on the cells and on the halo cells of every rank. *)
Theorem C71_cell_gradient : forall f32 dim SIZE cells nodes labels npart0 epart bc vs,
  regular dim SIZE cells nodes labels npart0 epart bc vs ->
  exists st, setup f32 dim SIZE cells nodes labels npart0 epart = Ok st /\
    forall l X, history bc vs SIZE st l -> holding SIZE st X l ->
    exists l' gs S P, compute_cell_gradient SIZE st l = Ok (l', gs) /\ holding SIZE st X l' /\ cell_fields SIZE st S P gs /\
      forall c, iscell cells c -> cell_slope dim cells nodes labels bc vs X c (S c) /\ limiter dim cells nodes labels bc vs X (S c) c (P c).
Proof.
  intros f32 dim SIZE cells nodes labels npart0 epart bc vs RG. regular_setup f32 RG st E RP CS HX. exists st. split; [exact E|]. intros l X H0 H1.
  exact (cell_gradients dim SIZE cells nodes labels npart0 epart st VM PL VS RP SC CS HX bc vs BV CW SP X l H0 H1).
Qed.
Print Assumptions C71_cell_gradient.
(** What the limiter is for: it lies between 0 and 1, and the value reconstructed at each facet stays between values found in the cell and beyond its facets
    (up to the threshold below which a change is ignored). *)
Theorem C71_bounds : forall dim cells nodes labels bc vs X S P c F,
  limiter dim cells nodes labels bc vs X (S c) c (P c) -> In F (facets (cell cells c)) ->
  (0 <= P c <= 1)%R /\ (within_range dim cells nodes labels bc vs X c (reconstructed dim cells nodes 2 X S P c F) \/ (Rabs (reconstructed dim cells nodes 2 X S P c F - X c) < threshold dim)%R).
Proof. intros dim cells nodes labels bc vs X S P c F HL HF. split; [exact (limiter_nonneg _ _ _ _ _ _ _ _ _ _ HL) | exact (reconstructed_range _ _ _ _ _ _ _ _ _ _ _ HL HF)]. Qed.

(** C72.  compute_face_gradient: at each facet of the mesh, the slope that takes the node values along the facet and the values of the cell and beyond across it;
    there is one such slope only, and it is the same seen from both cells. *)
Theorem C72_face_gradient : forall f32 dim SIZE cells nodes labels npart0 epart bc vs,
  regular dim SIZE cells nodes labels npart0 epart bc vs ->
  exists st, setup f32 dim SIZE cells nodes labels npart0 epart = Ok st /\
    forall l X g, history bc vs SIZE st l -> holding SIZE st X l -> (forall r, 0 <= r < SIZE -> exists x, get g r = Ok x /\ zlen x = zlen (dm_cellid (domain_of (se_domains st) r))) ->
    exists l' gs N G, compute_face_gradient SIZE st l g = Ok (l', gs) /\ holding SIZE st X l' /\ face_field dim cells SIZE st G gs /\
      (forall c k, iscell cells c -> In k (cell cells c) -> nodal_value dim cells nodes labels bc vs X k (N k)) /\
      (forall c F, iscell cells c -> In F (facets (cell cells c)) -> facet_slope dim cells nodes labels bc vs X N c F (G c F)).
Proof.
  intros f32 dim SIZE cells nodes labels npart0 epart bc vs RG. regular_setup f32 RG st E RP CS HX. exists st. split; [exact E|]. intros l X g H0 H1 HG.
  exact (face_gradients dim SIZE cells nodes labels npart0 epart st VM PL VS RP SC CS HX bc vs BV CW SP X l g H0 H1 HG).
Qed.
Print Assumptions C72_face_gradient.
Theorem C72_one_slope : forall dim cells nodes labels bc vs X N c F s,
  valid_mesh dim cells nodes labels -> has_facet dim cells c F -> facet_slope dim cells nodes labels bc vs X N c F s ->
  (forall s', facet_slope dim cells nodes labels bc vs X N c F s' -> s' = s) /\
  forall d, has_facet dim cells d F -> facet_slope dim cells nodes labels bc vs X N d F s.
Proof.
  intros dim cells nodes labels bc vs X N c F s VM HF HS. split.
  - intros s' HS'. exact (facet_slope_unique dim cells nodes labels bc vs VM X N c F s' s HF HS' HS).
  - intros d Hd. destruct (Z.eq_dec d c) as [->|NE]; [exact HS|]. apply (facet_slope_swap dim cells nodes labels bc vs VM X N c d F s HF); [|exact HS]. apply (beside_spec dim cells nodes (vm_mesh _ _ _ _ VM) (vm_proper _ _ _ _ VM) c F d HF). split; assumption.
Qed.
Print Assumptions C72_one_slope.

(** C73.  The complete transport loop: update, CFL step of advection and diffusion, cell gradient, convective and dissipative terms, new values, interpolation.
    It makes n steps of the largest allowed length dt, and the ranks then hold the field that the scheme on the whole mesh gives after n steps; after at least
    one step the nodes hold the interpolation of this field. *)
Theorem C73_transport : forall f32 dim SIZE cells nodes labels npart0 epart bc vs order U K cfl tfinal X,
  regular dim SIZE cells nodes labels npart0 epart bc vs -> (0 < cfl)%R -> (0 <= px K + py K + pz K)%R ->
  exists st dt n Y, setup f32 dim SIZE cells nodes labels npart0 epart = Ok st /\ (0 < dt)%R /\ largest_full cells nodes U K cfl dt /\
    (tfinal <= INR n * dt)%R /\ (forall m, (m < n)%nat -> (INR m * dt < tfinal)%R) /\ full_steps dim cells nodes labels bc vs n order U K dt X Y /\
    forall w0 fuel, values_of 0%R SIZE (se_domains st) X w0 -> (n <= fuel)%nat ->
    exists hs ws, full_transport fuel order bc vs U K cfl tfinal SIZE st w0 = Ok (Some (INR n * dt, hs)%R) /\
      mapM (fun s => cell_of (fh_ne s)) hs = Ok ws /\ values_of 0%R SIZE (se_domains st) Y ws /\
      (n = O \/ exists N, node_field SIZE st N (map fh_ne hs) /\ forall c g, iscell cells c -> In g (cell cells c) -> nodal_value dim cells nodes labels bc vs Y g (N g)).
Proof.
  intros f32 dim SIZE cells nodes labels npart0 epart bc vs order U K cfl tfinal X RG HC HK. regular_setup f32 RG st E RP CS HX.
  set (W := map (fun r => map (fun c => X (gcell (domain_of (se_domains st) r) c)) (range (zlen (dm_loctoglob (domain_of (se_domains st) r))))) (range SIZE)). pose proof (vs_size _ _ _ _ _ _ VS) as S1.
  assert (HW : values_of 0%R SIZE (se_domains st) X W).
  { split; [unfold W; rewrite zlen_map, zlen_range; lia|]. intros r Hr. unfold W. rewrite (nthZ_map _ 0) by (rewrite zlen_range; lia). rewrite nthZ_range by lia. pose proof (zlen_nonneg (dm_loctoglob (domain_of (se_domains st) r))). split; [rewrite zlen_map, zlen_range; lia|].
    intros c Hc. unfold iscell_of in Hc. rewrite (nthZ_map _ 0) by (rewrite zlen_range; lia). rewrite nthZ_range by lia. reflexivity. }
  pose proof (fun w0 => full_transport_runs dim SIZE cells nodes labels npart0 epart st VM PL VS RP SC CS HX bc vs BV CW SP order U K cfl HC HK X w0 tfinal) as FT.
  destruct (FT W HW) as (dt & n & PD & LS & T1 & T2 & R). destruct (R n (le_n n)) as (hs0 & ws0 & Y & _ & _ & _ & FS & _).
  exists st, dt, n, Y. split; [exact E|]. split; [exact PD|]. split; [exact LS|]. split; [exact T1|]. split; [exact T2|]. split; [exact FS|]. intros w0 fuel HV Hf.
  destruct (FT w0 HV) as (dt' & n' & PD' & LS' & T1' & T2' & R'). pose proof (largest_full_unique _ _ _ _ _ _ _ LS' LS) as ->.
  assert (n' = n). { destruct (Nat.lt_trichotomy n' n) as [H|[H|H]]; [|exact H|]; exfalso; [pose proof (T2 n' H) | pose proof (T2' n H)]; lra. } subst n'.
  destruct (R' fuel Hf) as (hs & ws & Y' & E1 & E2 & E3 & FS' & NV). pose proof (full_steps_unique dim cells nodes labels bc vs VM n order U K dt X Y' Y FS' FS) as EY. exists hs, ws. split; [exact E1|]. split; [exact E2|]. split.
  - destruct E3 as (L & H). split; [exact L|]. intros r Hr. destruct (H r Hr) as (LR & HR). split; [exact LR|]. intros c Hc. rewrite (HR c Hc). apply EY. exact (proj1 (gcell_owned dim cells nodes labels epart r _ (rp_part _ _ _ _ _ _ _ RP r Hr) c Hc)).
  - destruct NV as [NV|(SH & NV)]; [left; exact NV | right]. destruct (shown_nodes dim SIZE cells nodes labels npart0 epart st VM VS RP bc vs Y' _ SH NV) as (N & HN & HV'). exists N. split; [exact HN|]. intros c g Hc Hg. apply (nodal_same dim cells nodes labels bc vs VM Y' Y EY). exact (HV' c g Hc Hg).
Qed.
Print Assumptions C73_transport.
(** The result does not depend on the number of ranks or on the distribution of the cells. *)
Theorem C73_same_result : forall f32 dim cells nodes labels bc vs order U K cfl tfinal X SIZE npart0 epart SIZE' npart0' epart',
  regular dim SIZE cells nodes labels npart0 epart bc vs -> regular dim SIZE' cells nodes labels npart0' epart' bc vs -> (0 < cfl)%R -> (0 <= px K + py K + pz K)%R ->
  exists st st' n time Y, setup f32 dim SIZE cells nodes labels npart0 epart = Ok st /\ setup f32 dim SIZE' cells nodes labels npart0' epart' = Ok st' /\
    forall w0 w0' fuel, values_of 0%R SIZE (se_domains st) X w0 -> values_of 0%R SIZE' (se_domains st') X w0' -> (n <= fuel)%nat ->
    exists hs ws hs' ws', full_transport fuel order bc vs U K cfl tfinal SIZE st w0 = Ok (Some (time, hs)) /\ full_transport fuel order bc vs U K cfl tfinal SIZE' st' w0' = Ok (Some (time, hs')) /\
      mapM (fun s => cell_of (fh_ne s)) hs = Ok ws /\ mapM (fun s => cell_of (fh_ne s)) hs' = Ok ws' /\
      values_of 0%R SIZE (se_domains st) Y ws /\ values_of 0%R SIZE' (se_domains st') Y ws'.
Proof.
  intros f32 dim cells nodes labels bc vs order U K cfl tfinal X SIZE npart0 epart SIZE' npart0' epart' RG RG' HC HK.
  destruct (C73_transport f32 dim SIZE cells nodes labels npart0 epart bc vs order U K cfl tfinal X RG HC HK) as (st & dt & n & Y & E & PD & LS & T1 & T2 & FS & R).
  destruct (C73_transport f32 dim SIZE' cells nodes labels npart0' epart' bc vs order U K cfl tfinal X RG' HC HK) as (st' & dt' & n' & Y' & E' & PD' & LS' & T1' & T2' & FS' & R'). pose proof (largest_full_unique _ _ _ _ _ _ _ LS' LS) as ->.
  assert (n' = n). { destruct (Nat.lt_trichotomy n' n) as [H|[H|H]]; [|exact H|]; exfalso; [pose proof (T2 n' H) | pose proof (T2' n H)]; lra. } subst n'.
  pose proof (full_steps_unique dim cells nodes labels bc vs (rg_mesh _ _ _ _ _ _ _ _ _ RG) n order U K dt X Y' Y FS' FS) as EY.
  destruct (C68_parallel_setup f32 _ _ _ _ _ _ _ (rg_mesh _ _ _ _ _ _ _ _ _ RG') (rg_split _ _ _ _ _ _ _ _ _ RG')) as (st2 & E2 & RP & _). rewrite E' in E2. injection E2 as <-.
  exists st, st', n, (INR n * dt)%R, Y. split; [exact E|]. split; [exact E'|]. intros w0 w0' fuel H H' Hf. destruct (R w0 fuel H Hf) as (hs & ws & A & B & C & _). destruct (R' w0' fuel H' Hf) as (hs' & ws' & A' & B' & C' & _).
  exists hs, ws, hs', ws'. split; [exact A|]. split; [exact A'|]. split; [exact B|]. split; [exact B'|]. split; [exact C|].
  destruct C' as (L & HV). split; [exact L|]. intros r Hr. destruct (HV r Hr) as (LR & HR). split; [exact LR|]. intros c Hc. rewrite (HR c Hc). apply EY. exact (proj1 (gcell_owned dim cells nodes labels epart' r _ (rp_part _ _ _ _ _ _ _ RP r Hr) c Hc)).
Qed.
Print Assumptions C73_same_result.
(** A constant field stays constant when the dirichlet values are this constant. *)
Theorem C73_constant : forall f32 dim SIZE cells nodes labels npart0 epart bc vs order U K cfl tfinal k,
  regular dim SIZE cells nodes labels npart0 epart bc vs -> (0 < cfl)%R -> (0 <= px K + py K + pz K)%R -> dirichlet_within k k bc vs ->
  exists st n, setup f32 dim SIZE cells nodes labels npart0 epart = Ok st /\
    forall w0 fuel, values_of 0%R SIZE (se_domains st) (fun _ => k) w0 -> (n <= fuel)%nat ->
    exists time hs ws, full_transport fuel order bc vs U K cfl tfinal SIZE st w0 = Ok (Some (time, hs)) /\ mapM (fun s => cell_of (fh_ne s)) hs = Ok ws /\ values_of 0%R SIZE (se_domains st) (fun _ => k) ws.
Proof.
  intros f32 dim SIZE cells nodes labels npart0 epart bc vs order U K cfl tfinal k RG HC HK HD. pose proof RG as [VM _ _ _ VS _ _].
  destruct (C73_transport f32 dim SIZE cells nodes labels npart0 epart bc vs order U K cfl tfinal (fun _ => k) RG HC HK) as (st & dt & n & Y & E & PD & LS & T1 & T2 & FS & R).
  destruct (C68_parallel_setup f32 _ _ _ _ _ _ _ VM VS) as (st2 & E2 & RP & _). rewrite E in E2. injection E2 as <-.
  exists st, n. split; [exact E|]. intros w0 fuel HV Hf. destruct (R w0 fuel HV Hf) as (hs & ws & A & B & (L & C) & _). exists (INR n * dt)%R, hs, ws. split; [exact A|]. split; [exact B|]. split; [exact L|]. intros r Hr. destruct (C r Hr) as (LR & HR). split; [exact LR|]. intros c Hc. rewrite (HR c Hc).
  apply (full_steps_constant dim cells nodes labels bc vs VM k HD n order U K dt (fun _ => k) Y); [intros a Ha; apply (cells_closed dim SIZE cells nodes labels npart0 epart U VM VS a Ha) | reflexivity | exact FS |].
  exact (proj1 (gcell_owned dim cells nodes labels epart r _ (rp_part _ _ _ _ _ _ _ RP r Hr) c Hc)).
Qed.
Print Assumptions C73_constant.
(** A step changes the sum of volume times value over the mesh by what enters through the boundary of the mesh: facets inside the mesh, and facets between ranks,
    contribute nothing. *)
Theorem C73_conservation : forall dim SIZE cells nodes labels npart0 epart bc vs order U K dt X Y S P N G,
  valid_mesh dim cells nodes labels -> valid_split dim SIZE cells nodes npart0 epart ->
  full_step dim cells nodes labels bc vs order U K dt X Y -> reconstruction dim cells nodes labels bc vs X S P N G ->
  rsum (map (fun c => measure_of cells nodes c * Y c)%R (range (zlen cells))) =
    (rsum (map (fun c => measure_of cells nodes c * X c) (range (zlen cells))) +
     dt * rsum (map (fun p => entering dim cells nodes labels bc vs order U K X S P G (fst p) (snd p)) (boundary_facets cells)))%R.
Proof.
  intros dim SIZE cells nodes labels npart0 epart bc vs order U K dt X Y S P N G VM VS FS RC. apply (full_mass dim cells nodes labels bc vs VM order U K dt X Y S P N G); [|exact RC | exact FS].
  intros a Ha; apply (cells_closed dim SIZE cells nodes labels npart0 epart U VM VS a Ha).
Qed.
Print Assumptions C73_conservation.
(** First order without diffusion it is the scheme of C69. *)
Theorem C73_first_order : forall dim cells nodes labels bc vs U dt n X Y, full_steps dim cells nodes labels bc vs n 1 U vzero dt X Y ->
  forall c, iscell cells c -> Y c = upwind dim cells nodes labels n bc vs U dt X c.
Proof.
  intros dim cells nodes labels bc vs U dt n X. induction n as [|n IH]; intros Y; cbn [full_steps upwind]; [intros H; exact H|]. intros (X' & A & B) c Hc. rewrite (full_step_upwind dim cells nodes labels bc vs U dt X' Y B c Hc). specialize (IH X' A).
  unfold upwind_step. rewrite (IH c Hc). do 3 f_equal. apply map_ext. intros F. unfold leaving. cbv zeta. rewrite (IH c Hc). unfold value_beyond. destruct (beside cells c F) as [d|] eqn:EB; [|rewrite (IH c Hc); reflexivity].
  unfold beside in EB. apply find_some in EB as (EB & _). apply in_range in EB. rewrite (IH d EB). reflexivity.
Qed.

(** ** The unit square of two triangles on two ranks, value 1 at the bottom: the conditions hold, so all of this happens *)
Lemma sq_centres : centre 2 sq sq_v 0 = P3 (2/3) (1/3) 0 /\ centre 2 sq sq_v 1 = P3 (1/3) (2/3) 0.
Proof. split; unfold centre, cell_centre; [change (cell sq 0) with [0; 1; 2] | change (cell sq 1) with [0; 3; 2]]; cbn [map]; destruct sq_at as (A0 & A1 & A2 & A3); rewrite ?A0, ?A1, ?A2, ?A3; unfold barycentre, vsum, vscal, vadd; cbn [fold_right length px py pz Z.eqb Pos.eqb]; f_equal; cbn; field. Qed.
Lemma sq_mirrors : reflection sq_v [0; 1] (P3 (2/3) (1/3) 0) = P3 (2/3) (-1/3) 0 /\ reflection sq_v [1; 2] (P3 (2/3) (1/3) 0) = P3 (4/3) (1/3) 0 /\
  reflection sq_v [2; 3] (P3 (1/3) (2/3) 0) = P3 (1/3) (4/3) 0 /\ reflection sq_v [0; 3] (P3 (1/3) (2/3) 0) = P3 (-1/3) (2/3) 0.
Proof. repeat split; unfold reflection, area_vector; cbn [map hd]; destruct sq_at as (A0 & A1 & A2 & A3); rewrite ?A0, ?A1, ?A2, ?A3; unfold vdot, vsub, vscal; cbn [px py pz]; f_equal; field; lra. Qed.
Theorem C70_square : regular 2 1 sq sq_v [4; 4; 3; 3] [0; 0; 0; 0] [0; 0] sq_bc sq_bcv /\ regular 2 2 sq sq_v [4; 4; 3; 3] [0; 0; 1; 1] [0; 1] sq_bc sq_bcv.
Proof.
  assert (CC : forall c, iscell sq c -> c = 0 \/ c = 1) by (intros c Hc; unfold iscell in Hc; change (zlen sq) with 2 in Hc; lia).
  assert (PL : 2 = 2 -> planar sq_v). { intros _ p Hp. cbn in Hp. repeat (destruct Hp as [<-|Hp]; [reflexivity|]). destruct Hp. }
  destruct sq_centres as (C0 & C1). destruct sq_mirrors as (R1 & R2 & R3 & R4).
  assert (T0 : touching sq 0 = [0; 1] /\ touching sq 1 = [0] /\ touching sq 2 = [0; 1] /\ touching sq 3 = [1]) by (repeat split).
  assert (B0 : boundary_at sq 0 = [(0, [0; 1]); (1, [0; 3])] /\ boundary_at sq 1 = [(0, [1; 2]); (0, [0; 1])] /\ boundary_at sq 2 = [(0, [1; 2]); (1, [2; 3])] /\ boundary_at sq 3 = [(1, [2; 3]); (1, [0; 3])]) by (repeat split).
  destruct T0 as (T0 & T1 & T2 & T3). destruct B0 as (B0 & B1 & B2 & B3).
  assert (N0 : neighbours sq 0 = [1] /\ neighbours sq 1 = [0]) by (split; reflexivity). destruct N0 as (N0 & N1).
  assert (SP : spanned 2 sq sq_v).
  { split.
    - intros c g Hc Hg. assert (G : g = 0 \/ g = 1 \/ g = 2 \/ g = 3) by (destruct (CC c Hc) as [-> | ->]; vm_compute in Hg; lia). unfold spans. cbn [Z.eqb Pos.eqb]. unfold node_points. destruct G as [-> | [-> | [-> | ->]]].
      + rewrite T0, B0. cbn [map app fst snd]. rewrite C0, C1, R1, R4. exists (P3 (2/3) (1/3) 0), (P3 (1/3) (2/3) 0), (P3 (2/3) (-1/3) 0). split; [cbn; auto|]. split; [cbn; auto|]. split; [cbn; auto|]. unfold turn. cbn [px py pz]. lra.
      + rewrite T1, B1. cbn [map app fst snd]. rewrite C0, R1, R2. exists (P3 (2/3) (1/3) 0), (P3 (4/3) (1/3) 0), (P3 (2/3) (-1/3) 0). split; [cbn; auto|]. split; [cbn; auto|]. split; [cbn; auto|]. unfold turn. cbn [px py pz]. lra.
      + rewrite T2, B2. cbn [map app fst snd]. rewrite C0, C1, R2, R3. exists (P3 (2/3) (1/3) 0), (P3 (1/3) (2/3) 0), (P3 (4/3) (1/3) 0). split; [cbn; auto|]. split; [cbn; auto|]. split; [cbn; auto|]. unfold turn. cbn [px py pz]. lra.
      + rewrite T3, B3. cbn [map app fst snd]. rewrite C1, R3, R4. exists (P3 (1/3) (2/3) 0), (P3 (1/3) (4/3) 0), (P3 (-1/3) (2/3) 0). split; [cbn; auto|]. split; [cbn; auto|]. split; [cbn; auto|]. unfold turn. cbn [px py pz]. lra.
    - intros c Hc. unfold spans_from. cbn [Z.eqb Pos.eqb]. unfold cell_points. destruct (CC c Hc) as [-> | ->].
      + rewrite N0. change (cell sq 0) with [0; 1; 2]. cbn [flat_map map app]. rewrite B0, B1, B2. cbn [map app fst snd]. rewrite C0, C1, R1, R2, R3, R4. exists (P3 (2/3) (-1/3) 0), (P3 (4/3) (1/3) 0). split; [cbn; auto|]. split; [cbn; auto 6|]. unfold turn. cbn [px py pz]. lra.
      + rewrite N1. change (cell sq 1) with [0; 3; 2]. cbn [flat_map map app]. rewrite B0, B3, B2. cbn [map app fst snd]. rewrite C0, C1, R1, R2, R3, R4. exists (P3 (1/3) (4/3) 0), (P3 (-1/3) (2/3) 0). split; [cbn; auto 9|]. split; [cbn; auto 9|]. unfold turn. cbn [px py pz]. lra. }
  assert (CW : forall epart, corners_whole 2 sq [4; 4; 3; 3] sq_bc epart).
  { intros epart g a b c F l Ha Hb Ga Gb _ HB HG HL ES. assert (EB : l = LBottom) by (cbn in HL; destruct HL as [HL|HL]; [injection HL as <-; reflexivity | exfalso; intuition discriminate]). subst l. change (boundary_facets sq) with [(0, [1; 2]); (0, [0; 1]); (1, [2; 3]); (1, [0; 3])] in HB.
    cbn in HB. destruct HB as [HB|[HB|[HB|[HB|[]]]]]; injection HB as <- <-; vm_compute in ES; try discriminate ES. cbn in HG. destruct HG as [<-|[<-|[]]]; reflexivity. }
  split; constructor; [exact C68_square | exact PL | exact C68_square_stars | exact SP | exact C68_square_alone | exact (proj1 C69_square_conditions) | apply CW | exact C68_square | exact PL | exact C68_square_stars | exact SP | exact C68_square_split | exact (proj1 C69_square_conditions) | apply CW].
Qed.
(** the complete program on one rank and on two ranks, second order, with diffusion *)
Theorem C73_square_runs : forall f32 cfl tfinal X, (0 < cfl)%R -> let U := P3 0 1 0 in let K := P3 1 1 0 in
  exists st st' n time Y, setup f32 2 1 sq sq_v [4; 4; 3; 3] [0; 0; 0; 0] [0; 0] = Ok st /\ setup f32 2 2 sq sq_v [4; 4; 3; 3] [0; 0; 1; 1] [0; 1] = Ok st' /\
    forall w0 w0' fuel, values_of 0%R 1 (se_domains st) X w0 -> values_of 0%R 2 (se_domains st') X w0' -> (n <= fuel)%nat ->
    exists hs ws hs' ws', full_transport fuel 2 sq_bc sq_bcv U K cfl tfinal 1 st w0 = Ok (Some (time, hs)) /\ full_transport fuel 2 sq_bc sq_bcv U K cfl tfinal 2 st' w0' = Ok (Some (time, hs')) /\
      mapM (fun s => cell_of (fh_ne s)) hs = Ok ws /\ mapM (fun s => cell_of (fh_ne s)) hs' = Ok ws' /\ values_of 0%R 1 (se_domains st) Y ws /\ values_of 0%R 2 (se_domains st') Y ws'.
Proof. intros f32 cfl tfinal X Hc U K. exact (C73_same_result f32 2 sq sq_v [4; 4; 3; 3] sq_bc sq_bcv 2 U K cfl tfinal X 1 _ _ 2 _ _ (proj1 C70_square) (proj2 C70_square) Hc ltac:(unfold K; cbn [px py pz]; lra)). Qed.
Theorem C72_square_slope : facet_slope 2 sq sq_v [4; 4; 3; 3] sq_bc sq_bcv (fun c => IZR c) (fun _ => 0%R) 0 [0; 2] (P3 (-3/2) (3/2) 0).
Proof.
  destruct sq_centres as (C0 & C1). split; [intros _; reflexivity|]. split.
  - intros a b Ha Hb. destruct sq_at as (A0 & A1 & A2 & A3). cbn in Ha, Hb. destruct Ha as [<-|[<-|[]]], Hb as [<-|[<-|[]]]; rewrite ?A0, ?A2; unfold vdot, vsub; cbn [px py pz]; lra.
  - change (point_beyond 2 sq sq_v 0 [0; 2]) with (centre 2 sq sq_v 1). change (value_beyond 2 sq sq_v [4; 4; 3; 3] sq_bc sq_bcv (fun c => IZR c) 0 [0; 2]) with 1%R. rewrite C0, C1. unfold vdot, vsub; cbn [px py pz]. lra.
Qed.
