(** * Proofs_poisson3: the fluxes of the system of a rank are the fluxes through the facets of the mesh. *)
From Coq Require Import Reals Lra Permutation Sorted.
From Verif Require Import Py PyLemmas Model_part Spec_part Model_label Model_conn Spec_conn Proofs_conn1 Proofs_conn2 Model_geom Spec_geom Proofs_geom1 Proofs_geom2 Proofs_geom3
  Model_halo Spec_halo Model_interp Spec_interp Proofs_interp4 Proofs_interp5 Proofs_interp6 Spec_lsq Proofs_lsq Properties_lsq Model_fvm Spec_fvm Proofs_fvm1 Proofs_fvm2 Properties_fvm Model_bc Spec_bc Spec_bc3 Proofs_label Proofs_bc Proofs_bc2 Proofs_bc3 Properties_bc3 Model_domain Spec_domain Proofs_domain1 Proofs_domain4
  Model_comm Model_parallel Spec_parallel Proofs_parallel1 Proofs_parallel6 Properties_parallel Model_run Spec_run Proofs_run1 Proofs_run2 Proofs_run3 Proofs_run4 Proofs_run5 Proofs_run6 Spec_run2 Model_run2 Proofs_run7 Proofs_run8 Proofs_run9 Proofs_run10 Proofs_run11 Proofs_run12 Proofs_run13 Proofs_run14 Proofs_run15 Spec_run3 Proofs_run16 Model_poisson Spec_poisson Proofs_poisson1 Proofs_poisson2.
From Verif Require Model_linsys Spec_linsys Properties_linsys Proofs_periodic.
Open Scope Z_scope.

(** the centre of a facet lies in its line / plane *)
Lemma centre_in_facet nodes F : zlen F = 2 \/ zlen F = 3 -> vdot (area_vector nodes F) (vsub (facet_centre nodes F) (at_node nodes (hd 0 F))) = 0%R.
Proof.
  intros HF. unfold facet_centre, area_vector. destruct F as [|a [|b [|c [|d q]]]]; try (exfalso; unfold zlen in HF; cbn [length] in HF; lia).
  - cbn [map hd]. unfold barycentre. cbn [map vsum fold_right]. change (zlen [at_node nodes a; at_node nodes b]) with 2. unfold vdot, vsub, vscal, vadd, vzero. cbn [px py pz]. field.
  - cbn [map hd]. unfold barycentre. cbn [map vsum fold_right]. change (zlen [at_node nodes a; at_node nodes b; at_node nodes c]) with 3. unfold vdot, vsub, vscal, vadd, vzero. cbn [px py pz]. field.
Qed.

Section Mesh3.
Context (dim : Z) (cells : list (list Z)) (nodes : list pt) (labels : list Z).
Hypothesis VM : valid_mesh dim cells nodes labels.
Notation WF := (vm_mesh _ _ _ _ VM).
Notation NF := (vm_nonflat _ _ _ _ VM).
Notation PR := (vm_proper _ _ _ _ VM).
Notation ctr := (centre dim cells nodes).
(** along the line to the mirror image the difference quotient is the one along the normal *)
Lemma centre_depth c F : has_facet dim cells c F -> vdot (outward cells nodes c F) (vsub (facet_centre nodes F) (ctr c)) = vdot (outward cells nodes c F) (vsub (at_node nodes (hd 0 F)) (ctr c)).
Proof.
  intros HF. assert (LF : zlen F = dim) by (apply HF). pose proof (centre_in_facet nodes F ltac:(rewrite LF; exact (wm_dim _ _ _ WF))) as Z0. destruct (area_outward dim cells nodes labels VM c F HF) as (e & He & EA). rewrite EA, vdot_scal, !vdot_sub in Z0. rewrite !vdot_sub. destruct He as [-> | ->]; lra.
Qed.
Lemma depth_positive c F : has_facet dim cells c F -> (0 < vdot (outward cells nodes c F) (vsub (facet_centre nodes F) (ctr c)))%R.
Proof. intros HF. rewrite (centre_depth c F HF). pose proof (centre_inside dim cells nodes labels VM c F _ HF (facet_node dim cells nodes labels VM c F HF)) as CI. rewrite vdot_sub in CI |- *. lra. Qed.
Lemma mirror_quotient c F s y x : has_facet dim cells c F -> let n := outward cells nodes c F in
  vdot s (vsub (reflection nodes F (ctr c)) (ctr c)) = (2 * y - x - x)%R -> vdot s n = ((y - x) * vdot n n / vdot n (vsub (facet_centre nodes F) (ctr c)))%R.
Proof.
  intros HF n H. pose proof (depth_positive c F HF) as DP. pose proof (centre_depth c F HF) as CD. fold n in DP, CD |- *. rewrite CD in DP |- *. clear CD. unfold reflection in H. cbv zeta in H. pose proof (area_nonzero dim cells nodes labels VM c F HF) as AN.
  destruct (area_outward dim cells nodes labels VM c F HF) as (e & He & EA). rewrite EA in *. fold n in H, AN, EA. set (p := at_node nodes (hd 0 F)) in *. set (z := ctr c) in *.
  assert (EE : (e * e = 1)%R) by (destruct He as [-> | ->]; ring).
  assert (ES : vdot (vscal e n) (vscal e n) = vdot n n) by (rewrite vdot_scal, vdot_comm, vdot_scal, <- Rmult_assoc, EE; ring). rewrite ES in *.
  rewrite (vdot_scal e n (vsub z p)) in H. assert (EZ : vdot n (vsub z p) = (- vdot n (vsub p z))%R) by (rewrite !vdot_sub; ring). rewrite EZ in H. set (t := vdot n (vsub p z)) in *.
  assert (E2 : vdot s (vsub (vsub z (vscal (2 * (e * - t) / vdot n n) (vscal e n))) z) = (2 * (e * e) * t / vdot n n * vdot s n)%R).
  { assert (G : forall k, vdot s (vsub (vsub z (vscal k (vscal e n))) z) = (- (k * e) * vdot s n)%R) by (intros k; unfold vdot, vsub, vscal; cbn [px py pz]; ring). rewrite G. clear - AN. generalize dependent (vdot n n). intros q Hq. clearbody t. generalize (vdot s n). intros u. field. exact Hq. }
  rewrite E2, EE in H. apply (Rmult_eq_reg_l (2 * 1 * t / vdot n n)); [|apply Rmult_integral_contrapositive_currified; [lra | apply Rinv_neq_0_compat; exact AN]]. rewrite H. clear - AN DP. fold n. fold p. fold t. generalize dependent (vdot n n). intros q Hq. clearbody t. field. split; [lra | exact Hq].
Qed.
End Mesh3.

Section Rank3.
Context (dim : Z) (cells : list (list Z)) (nodes : list pt) (labels epart : list Z) (r : Z) (D : domain).
Hypothesis VM : valid_mesh dim cells nodes labels.
Hypothesis PL : dim = 2 -> planar nodes.
Hypothesis PA : part_of dim cells nodes labels epart r D.
Hypothesis CS : consistent dim D.
Context (bc : list (loc * bctype)) (vs : list (loc * bcval)).
Hypothesis BV : bc_valid dim bc vs.
Context (w : list R) (v : variable).
Hypothesis FV : vfull (dom_bc D) bc vs w v.
Context (B : Model_linsys.bord).
Hypothesis BD : Spec_linsys.boundary_data (dom_bc D) bc vs B.
Notation WF := (vm_mesh _ _ _ _ VM).
Notation gc := (gcell D).
Notation S := (sys_of D v).
Notation L := (lists_of D v).
Notation name f := (nthZ 0 (dm_name D) f).

Lemma vertex_len : zlen (dm_vertex D) = zlen (dm_nodeglob D).
Proof. destruct (pa_sizes _ _ _ _ _ _ _ PA) as (_ & _ & _ & _ & _ & _ & E & _). exact E. Qed.
(** the values prescribed at the nodes *)
Lemma node_cases k : isnode_of D k -> Spec_linsys.dirichlet_node S k /\ node_fixed nodes labels bc vs (gnode D k) = Some (nthZ 0%R (Model_linsys.pb_node B) k) \/
  ~ Spec_linsys.dirichlet_node S k /\ node_fixed nodes labels bc vs (gnode D k) = None.
Proof.
  intros Hk. destruct (pa_node _ _ _ _ _ _ _ PA k Hk) as (P1 & P2). pose proof (full_labels _ _ _ _ _ FV) as FL. unfold Spec_linsys.dirichlet_node. cbn [sys_of dom_sys Model_linsys.sy_N dom_node nd_old Model_linsys.sy_bcd]. unfold node_fixed. rewrite FL, P2.
  destruct (fixed_cases dim bc vs BV (nthZ 0 labels (gnode D k))) as [(s & Hs & Es & HF)|(NS & HF)]; rewrite HF.
  - left. split; [exists s; auto|]. f_equal. destruct BD as (_ & _ & _ & _ & B5 & _). rewrite (B5 s BDirichlet k Hs); [|cbn [dom_bc bd_nbnodes]; rewrite vertex_len; exact Hk | cbn [dom_bc bd_oldname]; congruence].
    unfold Spec_linsys.prescribed_node, prescribed_at. cbn [dom_bc bd_vertex]. rewrite P1. reflexivity.
  - right. split; [|reflexivity]. intros (l & Hl & E). exact (NS l Hl (eq_sym E)).
Qed.
(** the values prescribed at the faces of the boundary *)
Lemma face_cases f : isface D f -> 1 <= name f <= 2 * dim -> In f (Model_linsys.sl_dir L) /\ facet_fixed dim nodes labels bc vs (fset D f) = Some (nthZ 0%R (Model_linsys.pb_face B) f) \/
  ~ In f (Model_linsys.sl_dir L) /\ facet_fixed dim nodes labels bc vs (fset D f) = None.
Proof.
  intros Hf HN. destruct (boundary_face dim cells nodes labels epart r D VM PA f Hf HN) as (_ & _ & EN). rewrite (in_dir_face dim cells nodes labels epart r D PA CS bc vs w v FV f). unfold facet_fixed. rewrite <- EN.
  destruct (names_len dim cells nodes labels epart r D PA CS) as (L1 & L2).
  destruct (fixed_cases dim bc vs BV (name f)) as [(s & Hs & Es & HF)|(NS & HF)]; rewrite HF.
  - left. split; [split; [exact Hf|]; exists s; auto|]. f_equal. destruct BD as (_ & _ & B3 & _). rewrite (B3 s BDirichlet f Hs); [|cbn [dom_bc bd_name]; unfold isface in Hf; lia | cbn [dom_bc bd_name]; congruence].
    unfold prescribed, prescribed_at. cbn [dom_bc bd_fcenter]. rewrite (fcenter_of dim cells nodes labels epart r D PA f Hf). reflexivity.
  - right. split; [|reflexivity]. intros (_ & l & Hl & E). exact (NS l Hl (eq_sym E)).
Qed.

Context (X N : Z -> R) (wn : list (option R)).
Hypothesis HN : forall k, isnode_of D k -> node_value dim cells nodes labels bc vs X (gnode D k) (N (gnode D k)).
Hypothesis HW : forall k, isnode_of D k -> exists y, nthZ None wn k = Some y /\ nodal_value dim cells nodes labels [] [] X (gnode D k) y.

Lemma nodes_finite_ok : Spec_linsys.nodes_finite S L wn.
Proof.
  intros f k Hf Hk _. destruct (HW k) as (y & -> & _); [|discriminate]. assert (If : isface D f). { destruct Hf as [Hf|Hf]; [apply (in_inner_face dim cells nodes labels epart r D VM PA CS v) in Hf | apply (in_halo_face dim cells nodes labels epart r D PA CS v) in Hf]; tauto. }
  pose proof (proj2 (pa_numbers _ _ _ _ _ _ _ PA) f If) as NB. rewrite Forall_forall in NB. apply NB. exact Hk.
Qed.
(** the node values seen from a face that is not on the boundary *)
Lemma seen_values f vn : isface D f -> In f (Model_linsys.sl_inner L) \/ In f (Model_linsys.sl_halo L) -> Spec_linsys.node_values S L B wn f vn -> forall k, In k (nthZ [] (dm_facenodes D) f) -> isnode_of D k /\ vn k = N (gnode D k).
Proof.
  intros If Hf HV k Hk. pose proof (proj2 (pa_numbers _ _ _ _ _ _ _ PA) f If) as NB. rewrite Forall_forall in NB. specialize (NB k Hk). split; [exact NB|]. destruct (HV k Hk) as (_ & V2). destruct (V2 Hf) as (VD & VN). pose proof (HN k NB) as HK. unfold node_value in HK.
  destruct (node_cases k NB) as [(DN & E)|(DN & E)]; rewrite E in HK; [rewrite (VD DN), HK; reflexivity|]. destruct (HW k NB) as (y & Ey & Hy). specialize (VN DN). rewrite Ey in VN. injection VN as <-. exact (nodal_unique _ _ _ _ _ _ _ _ _ _ Hy HK).
Qed.

Context (flux : Z -> R).
Hypothesis HF : forall f, Spec_linsys.in_system L f -> Spec_linsys.diamond_flux dim S L B wn X f (flux f).
Lemma gradient_face c f : iscell_of D c -> In f (nthZ [] (dm_faceid D) c) ->
  gradient_flux dim cells nodes labels bc vs X N (gc c) (fset D f) (leaves (dom_fv D) (system_flux D v flux) c f).
Proof.
  intros Hc Hf. pose proof (wm_dim _ _ _ WF) as Hd. destruct (face_view dim cells nodes labels epart r D VM PA CS c f Hc Hf) as (If & FC & HG & VW). unfold gradient_flux. cbv zeta.
  assert (SL : forall a, iscell_of D a -> Spec_linsys.global_cell S a = gc a) by (intros a Ha; unfold Spec_linsys.global_cell, gcell; cbn [sys_of dom_sys Model_linsys.sy_l2g]; apply nthZ_indep; exact Ha).
  assert (SH : forall h, ishalo_of D h -> Spec_linsys.global_halo S h = ghalo D h).
  { intros h Hh. destruct (cs_system _ _ CS (va_BCdirichlet v) [] ltac:(intros ? [])) as (WY & _). destruct (pa_sizes _ _ _ _ _ _ _ PA) as (_ & _ & _ & _ & _ & EH & _). unfold Spec_linsys.global_halo, ghalo. cbn [sys_of dom_sys Model_linsys.sy_hext]. apply nthZ_indep. split; [lia|]. apply (Spec_linsys.wy_hext _ _ _ _ _ WY). unfold Spec_linsys.nbhalos. cbn [dom_sys Model_linsys.sy_N dom_node nd_centerh]. unfold ishalo_of in Hh. lia. }
  assert (VX : forall k, isnode_of D k -> at_node (dm_vertex D) k = at_node nodes (gnode D k)) by (intros k Hk; exact (proj1 (pa_node _ _ _ _ _ _ _ PA k Hk))).
  assert (NV : forall g vn, In f (Model_linsys.sl_inner L) \/ In f (Model_linsys.sl_halo L) -> Spec_linsys.node_values S L B wn f vn ->
            (forall a b, In a (nthZ [] (dm_facenodes D) f) -> In b (nthZ [] (dm_facenodes D) f) -> vdot g (vsub (at_node (dm_vertex D) a) (at_node (dm_vertex D) b)) = (vn a - vn b)%R) ->
            forall a b, In a (fset D f) -> In b (fset D f) -> vdot g (vsub (at_node nodes b) (at_node nodes a)) = (N b - N a)%R).
  { intros g vn Hs HV H a b Ha Hb. destruct HG as (_ & PG). apply (Permutation_in _ (Permutation_sym PG)) in Ha, Hb. apply in_map_iff in Ha as (ka & <- & Ka). apply in_map_iff in Hb as (kb & <- & Kb). specialize (H kb ka Kb Ka).
    destruct (seen_values f vn If Hs HV ka Ka) as (Ia & Ea). destruct (seen_values f vn If Hs HV kb Kb) as (Ib & Eb). rewrite !VX, Ea, Eb in H by assumption. exact H. }
  unfold leaves, system_flux, cell0, cell1, fv_label. cbn [dom_fv fv_cellid fv_name].
  destruct VW as [(d & Hdd & Ndc & name & BS & _ & R) | [(name & row & one & BS & En) | (name & row & Hh & BS & En)]]; rewrite BS.
  - assert (In f (Model_linsys.sl_inner L)) as Hin by (apply (in_inner_face dim cells nodes labels epart r D VM PA CS v); auto). destruct (HF f (or_introl Hin)) as (vn & g & wr & HV & (VR & _) & (G1 & G2 & G3) & EF). specialize (VR Hin). specialize (NV g vn (or_introl Hin) HV G3).
    unfold Spec_linsys.value_left, Spec_linsys.left_cell in G2. unfold Spec_linsys.right_cell in VR. unfold face_other, face_left in G2. cbn [sys_of dom_sys Model_linsys.sy_G dom_face fd_cellid fd_name fd_centerc fd_normal] in G2, VR, EF. rewrite name in G2 |- *. cbn [Z.eqb orb fst snd] in G2 |- *.
    destruct R as [(row & En)|(row & En)]; rewrite row in *; rewrite En in EF.
    + change (nthZ 0 [c; d] 0) with c in *. change (nthZ 0 [c; d] 1) with d in *. rewrite Z.eqb_refl. destruct (Z.eqb_spec d c); [contradiction|]. cbn [andb]. exists g. split; [|rewrite EF; ring]. split; [exact G1|]. split; [exact NV|].
      rewrite !(centre_of dim cells nodes labels epart r D PA) in G2 by assumption. rewrite G2, VR, !SL by assumption. reflexivity.
    + change (nthZ 0 [d; c] 0) with d in *. change (nthZ 0 [d; c] 1) with c in *. rewrite Z.eqb_refl. destruct (Z.eqb_spec d c); [contradiction|]. cbn [andb]. exists g. split; [|rewrite EF; unfold vdot, vscal; cbn [px py pz]; ring]. split; [exact G1|]. split; [exact NV|].
      rewrite !(centre_of dim cells nodes labels epart r D PA) in G2 by assumption. rewrite VR in G2. rewrite !SL in G2 by assumption. replace (X (gc d) - X (gc c))%R with (- (X (gc c) - X (gc d)))%R by ring. rewrite <- G2. unfold vdot, vsub. cbn [px py pz]. ring.
  - rewrite row. change (nthZ 0 [c; -1] 0) with c. rewrite Z.eqb_refl. replace (nthZ 0 (dm_name D) f =? 0) with false by lia. replace (nthZ 0 (dm_name D) f =? 10) with false by lia. cbn [orb andb].
    destruct (face_cases f If name) as [(Hdir & E)|(Hdir & E)]; rewrite E.
    + rewrite (proj2 (mem_In f _) Hdir). destruct (HF f (or_intror (or_intror Hdir))) as (vn & g & wr & _ & (_ & _ & VR) & (G1 & G2 & _) & EF). specialize (VR Hdir).
      unfold Spec_linsys.value_left, Spec_linsys.left_cell in G2, VR. unfold face_other, face_left in G2. cbn [sys_of dom_sys Model_linsys.sy_G dom_face fd_cellid fd_name fd_centerc fd_ghost fd_normal] in G2, VR, EF. rewrite row in G2, VR. change (nthZ 0 [c; -1] 0) with c in *.
      replace (nthZ 0 (dm_name D) f =? 0) with false in G2 by lia. replace (nthZ 0 (dm_name D) f =? 10) with false in G2 by lia. replace (is_periodic dim (nthZ 0 (dm_name D) f)) with false in G2 by (unfold is_periodic, is_x, is_y, is_z; lia). cbn [fst] in G2.
      rewrite !(centre_of dim cells nodes labels epart r D PA), VR in G2 by assumption. rewrite !SL in G2 by assumption. rewrite EF, En, Rminus_0_r.
      pose proof (pa_ghosts _ _ _ _ _ _ _ PA f _ HG name) as MI. assert (ELf : left_of D f = c) by (unfold left_of; rewrite row; reflexivity). rewrite ELf, (centre_of dim cells nodes labels epart r D PA) in MI by exact Hc.
      apply (mirror_quotient dim cells nodes labels VM (gc c) (fset D f) g _ _ FC).
      rewrite <- (mirror_reflection dim cells nodes labels VM PL (gc c) (fset D f) _ _ FC (fun E0 => centre_level dim cells nodes (gc c) E0) MI). rewrite <- G2. unfold level. destruct (Z.eqb_spec dim 2) as [E2|]; [|reflexivity]. unfold vdot, vsub. cbn [px py pz]. rewrite (G1 E2). ring.
    + rewrite (proj2 (mem_not_In f _) Hdir). ring.
  - rewrite row, name. change (nthZ 0 [c; -10] 0) with c. rewrite Z.eqb_refl. change (10 =? 0) with false. change (10 =? 10) with true. cbn [orb andb].
    assert (In f (Model_linsys.sl_halo L)) as Hin by (apply (in_halo_face dim cells nodes labels epart r D PA CS v); auto). destruct (HF f (or_intror (or_introl Hin))) as (vn & g & wr & HV & (_ & VR & _) & (G1 & G2 & G3) & EF). specialize (VR Hin). specialize (NV g vn (or_intror Hin) HV G3).
    unfold Spec_linsys.value_left, Spec_linsys.left_cell in G2. unfold face_other, face_left in G2. cbn [sys_of dom_sys Model_linsys.sy_G dom_face fd_cellid fd_name fd_centerc fd_centerh fd_halofid fd_normal] in G2, VR, EF. rewrite name, row in G2. change (nthZ 0 [c; -10] 0) with c in *. change (10 =? 0) with false in G2. change (10 =? 10) with true in G2. replace (is_periodic dim 10) with false in G2 by (unfold is_periodic, is_x, is_y, is_z; lia). cbn [fst] in G2.
    rewrite (centre_of dim cells nodes labels epart r D PA), (halo_centre dim cells nodes labels epart r D PA), VR in G2 by assumption. exists g. split; [|rewrite EF, En; ring]. split; [exact G1|]. split; [exact NV|]. rewrite G2, SH, SL by assumption. reflexivity.
Qed.
End Rank3.
