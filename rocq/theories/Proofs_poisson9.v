(** * Proofs_poisson9: the gradient of the solution on all the ranks (C76). *)
From Coq Require Import Reals Lra Permutation Sorted.
From Verif Require Import Py PyLemmas Model_part Spec_part Model_label Model_conn Spec_conn Proofs_conn1 Proofs_conn2 Model_geom Spec_geom Proofs_geom1 Proofs_geom2 Proofs_geom3
  Model_halo Spec_halo Model_interp Spec_interp Proofs_interp4 Proofs_interp5 Proofs_interp6 Spec_lsq Proofs_lsq Properties_lsq Model_fvm Spec_fvm Proofs_fvm1 Proofs_fvm2 Properties_fvm Model_bc Spec_bc Spec_bc3 Proofs_label Proofs_bc Proofs_bc2 Proofs_bc3 Properties_bc3 Model_domain Spec_domain Proofs_domain1 Proofs_domain4
  Model_comm Model_parallel Spec_parallel Proofs_parallel1 Proofs_parallel6 Properties_parallel Model_run Spec_run Proofs_run1 Proofs_run2 Proofs_run3 Proofs_run4 Proofs_run5 Proofs_run6 Spec_run2 Model_run2 Proofs_run7 Proofs_run8 Proofs_run9 Proofs_run10 Proofs_run11 Proofs_run12 Proofs_run13 Proofs_run14 Proofs_run15 Spec_run3 Proofs_run16 Model_poisson Spec_poisson Proofs_poisson1 Proofs_poisson2 Proofs_poisson3 Spec_poisson3.
From Verif Require Model_linsys Spec_linsys Proofs_linsys1 Properties_linsys Proofs_linsys9 Proofs_periodic.
Open Scope Z_scope.

Notation vneg := Spec_linsys.vneg.
Lemma vneg_vneg s : vneg (vneg s) = s.
Proof. destruct s as [x y z]. unfold Spec_linsys.vneg. cbn [px py pz]. f_equal; ring. Qed.
Lemma free_boundary dim nodes labels bc vs F x : facet_fixed dim nodes labels bc vs F = None -> boundary_value dim nodes labels bc vs F x = x.
Proof. unfold facet_fixed, fixed, boundary_value. destruct (find _ bc) as [(l, t)|]; [|reflexivity]. destruct t; try reflexivity. discriminate. Qed.

(** whether a value is prescribed does not depend on the values *)
Lemma fixed_with dim bc vs vb l : bc_valid dim bc vs ->
  (exists s, In (s, BDirichlet) bc /\ side_label s = l /\ forall p, fixed bc vb l p = Some (prescribed_at vb s p)) \/ ((forall s, In (s, BDirichlet) bc -> side_label s <> l) /\ forall p, fixed bc vb l p = None).
Proof.
  intros BV. destruct (find (fun e => side_label (fst e) =? l) bc) as [(s, t)|] eqn:EF.
  - destruct (fixed_cases dim bc vs BV l) as [(s' & _ & _ & HF)|(NS & HF)].
    + specialize (HF vzero). unfold fixed in HF. rewrite EF in HF. destruct t; try discriminate HF. left. exists s. split; [exact (proj1 (find_some _ _ EF))|]. split; [apply Z.eqb_eq; exact (proj2 (find_some _ _ EF))|]. intros p. unfold fixed. rewrite EF. reflexivity.
    + right. split; [exact NS|]. intros p. unfold fixed. rewrite EF. specialize (HF vzero). unfold fixed in HF. rewrite EF in HF. destruct t; try reflexivity. discriminate HF.
  - right. split; [|intros p; unfold fixed; rewrite EF; reflexivity]. intros s Hs E. pose proof (find_none _ _ EF _ Hs) as Y. cbn [fst] in Y. rewrite E, Z.eqb_refl in Y. discriminate Y.
Qed.
Lemma facet_fixed_none dim nodes labels bc vs vb F : facet_fixed dim nodes labels bc vb F = None -> facet_fixed dim nodes labels bc vs F = None.
Proof. unfold facet_fixed, fixed. destruct (find _ bc) as [(l, t)|]; [|reflexivity]. destruct t; try reflexivity. discriminate. Qed.
(** the data B carry the values vb at the dirichlet sides *)
Definition boundary_values (D : bcdom) (bc : list (loc * bctype)) (vb : list (loc * bcval)) (B : Model_linsys.bord) : Prop :=
  zlen (Model_linsys.pb_face B) = zlen (bd_name D) /\ zlen (Model_linsys.pb_node B) = bd_nbnodes D /\
  (forall l f, In (l, BDirichlet) bc -> 0 <= f < zlen (bd_name D) -> nthZ 0 (bd_name D) f = Spec_bc.side_label l -> nthZ 0%R (Model_linsys.pb_face B) f = Spec_bc.prescribed D vb [] l BDirichlet f) /\
  (forall l k, In (l, BDirichlet) bc -> 0 <= k < bd_nbnodes D -> nthZ 0 (bd_oldname D) k = Spec_bc.side_label l -> nthZ 0%R (Model_linsys.pb_node B) k = Spec_linsys.prescribed_node D vb l k).
Lemma data_values D bc vs B : Spec_linsys.boundary_data D bc vs B -> boundary_values D bc vs B.
Proof. intros (B1 & B2 & B3 & _ & B5 & _). split; [exact B1|]. split; [exact B2|]. split; intros l f Hl; [exact (B3 l BDirichlet f Hl) | exact (B5 l BDirichlet f Hl)]. Qed.

Section Rank9.
Context (dim : Z) (cells : list (list Z)) (nodes : list pt) (labels epart : list Z) (r : Z) (D : domain).
Hypothesis VM : valid_mesh dim cells nodes labels.
Hypothesis PL : dim = 2 -> planar nodes.
Hypothesis PA : part_of dim cells nodes labels epart r D.
Hypothesis CS : consistent dim D.
Context (bc : list (loc * bctype)) (vs : list (loc * bcval)).
Hypothesis BV : bc_valid dim bc vs.
Context (w : list R) (v : variable).
Hypothesis FV : vfull (dom_bc D) bc vs w v.
Context (B : Model_linsys.bord).
Context (vb : list (loc * bcval)).
Hypothesis BD : boundary_values (dom_bc D) bc vb B.
Notation WF := (vm_mesh _ _ _ _ VM).
Notation gc := (gcell D).
Notation S := (sys_of D v).
Context (X N : Z -> R) (W : values) (n : list R).
Hypothesis HWF : wf_values W (zlen (dm_center D)) (zlen (dm_cellid D)) (zlen (dm_centerh D)) (dm_nhg D).
Hypothesis HC : forall c, iscell_of D c -> nthZ 0%R (w_c W) c = X (gc c).
Hypothesis HH : forall h, ishalo_of D h -> nthZ 0%R (w_halo W) h = X (ghalo D h).
Hypothesis HGh : forall f c, only_cell dim cells c (fset D f) -> isface D f -> gc (left_of D f) = c -> nthZ 0%R (w_ghost W) f = boundary_value dim nodes labels bc vs (fset D f) (X c).
Hypothesis LN : zlen n = zlen (dm_nodeglob D).
Hypothesis HN : forall k, isnode_of D k -> nthZ 0%R n k = N (gnode D k).

Lemma node_cases9 k : isnode_of D k -> Spec_linsys.dirichlet_node S k /\ node_fixed nodes labels bc vb (gnode D k) = Some (nthZ 0%R (Model_linsys.pb_node B) k) \/
  ~ Spec_linsys.dirichlet_node S k /\ node_fixed nodes labels bc vb (gnode D k) = None.
Proof.
  intros Hk. destruct (pa_node _ _ _ _ _ _ _ PA k Hk) as (P1 & P2). pose proof (full_labels _ _ _ _ _ FV) as FL. unfold Spec_linsys.dirichlet_node. cbn [sys_of dom_sys Model_linsys.sy_N dom_node nd_old Model_linsys.sy_bcd]. unfold node_fixed. rewrite FL, P2.
  destruct (fixed_with dim bc vs vb (nthZ 0 labels (gnode D k)) BV) as [(s & Hs & Es & HF)|(NS & HF)]; rewrite HF.
  - left. split; [exists s; auto|]. f_equal. destruct BD as (_ & _ & _ & B5). rewrite (B5 s k Hs); [|cbn [dom_bc bd_nbnodes]; rewrite (vertex_len dim cells nodes labels epart r D PA); exact Hk | cbn [dom_bc bd_oldname]; congruence].
    unfold Spec_linsys.prescribed_node, prescribed_at. cbn [dom_bc bd_vertex]. rewrite P1. reflexivity.
  - right. split; [|reflexivity]. intros (l & Hl & E). exact (NS l Hl (eq_sym E)).
Qed.
Lemma face_cases9 f : isface D f -> 1 <= nthZ 0 (dm_name D) f <= 2 * dim -> In f (Model_linsys.sl_dir (lists_of D v)) /\ facet_fixed dim nodes labels bc vb (fset D f) = Some (nthZ 0%R (Model_linsys.pb_face B) f) \/
  ~ In f (Model_linsys.sl_dir (lists_of D v)) /\ facet_fixed dim nodes labels bc vb (fset D f) = None.
Proof.
  intros Hf HNm. destruct (boundary_face dim cells nodes labels epart r D VM PA f Hf HNm) as (_ & _ & EN). rewrite (in_dir_face dim cells nodes labels epart r D PA CS bc vs w v FV f). unfold facet_fixed. rewrite <- EN.
  destruct (names_len dim cells nodes labels epart r D PA CS) as (L1 & L2).
  destruct (fixed_with dim bc vs vb (nthZ 0 (dm_name D) f) BV) as [(s & Hs & Es & HF)|(NS & HF)]; rewrite HF.
  - left. split; [split; [exact Hf|]; exists s; auto|]. f_equal. destruct BD as (_ & _ & B3 & _). rewrite (B3 s f Hs); [|cbn [dom_bc bd_name]; unfold isface in Hf; lia | cbn [dom_bc bd_name]; congruence].
    unfold prescribed, prescribed_at. cbn [dom_bc bd_fcenter]. rewrite (fcenter_of dim cells nodes labels epart r D PA f Hf). reflexivity.
  - right. split; [|reflexivity]. intros (_ & l & Hl & E). exact (NS l Hl (eq_sym E)).
Qed.
Lemma solution_slope_ok L g0 : lists_ok dim (dom_face D) L -> (forall f, isface D f -> listed L f) -> fl_dirichlet L = Model_linsys.sl_dir (lists_of D v) -> zlen g0 = zlen (dm_cellid D) ->
  exists gs, Model_linsys.compute_P_gradient dim S B W n L g0 = Ok gs /\ zlen gs = zlen (dm_cellid D) /\
  forall c f, iscell_of D c -> In f (nthZ [] (dm_faceid D) c) -> exists s, nthZ None gs f = Some (vneg s) /\ solution_slope dim cells nodes labels bc vb X N (gc c) (fset D f) s.
Proof.
  intros LO LI LD L0. pose proof (wm_dim _ _ _ WF) as Hd. destruct (cs_faces _ _ CS) as (WFA & EI & FN). destruct HWF as (W1 & W2 & W3 & _). destruct (pa_sizes _ _ _ _ _ _ _ PA) as (_ & S2 & _ & SF & SC & SH & SV & _).
  pose proof BD as (B1 & B2 & _). cbn [dom_bc bd_name bd_nbnodes] in B1, B2. destruct (names_len dim cells nodes labels epart r D PA CS) as (L1 & L2).
  destruct (cs_system _ _ CS (va_BCdirichlet v) [] ltac:(intros ? [])) as (WY & _).
  destruct (Proofs_linsys9.compute_P_ok dim S B L W n) with (g := g0) as (gs & E & LG & V).
  { exact WFA. } { exact EI. } { exact LO. } { exact W1. } { exact W2. } { exact W3. } { cbn [sys_of dom_sys Model_linsys.sy_G dom_face fd_vertex]. lia. }
  { destruct (cs_nodes _ _ CS) as (WN & _). pose proof (wn_len _ _ _ _ WN) as WL. cbn [sys_of dom_sys Model_linsys.sy_G Model_linsys.sy_N dom_node nd_old nd_vertex dom_face fd_vertex] in *. tauto. }
  { cbn [sys_of dom_sys Model_linsys.sy_G dom_face fd_vertex]. lia. } { cbn [sys_of dom_sys Model_linsys.sy_G dom_face fd_cellid]. lia. } { exact L0. }
  exists gs. split; [exact E|]. cbn [sys_of dom_sys Model_linsys.sy_G dom_face fd_cellid] in LG, V. split; [exact LG|]. intros c f Hc Hf. destruct (face_view dim cells nodes labels epart r D VM PA CS c f Hc Hf) as (If & FC & HG & VW). assert (Hf' : 0 <= f < zlen (dm_cellid D)) by (unfold isface in If; lia).
  destruct (FN f Hf') as (NN & TS). unfold two_sided in TS. cbv zeta in TS. rewrite (cs_dim _ _ CS) in TS. destruct (V f Hf') as (VD & VN & _). specialize (VN (LI f If)). rewrite LD in VD, VN. unfold Proofs_linsys9.Pd in VD. unfold Proofs_linsys9.Pn in VN.
  assert (ANY : forall wn vr, exists s, fgrad dim (dom_face D) W wn f vr = Some s /\ gradient dim s /\
    (forall a b, In a (nthZ [] (dm_facenodes D) f) -> In b (nthZ [] (dm_facenodes D) f) -> vdot s (vsub (at_node (dm_vertex D) b) (at_node (dm_vertex D) a)) = (nthZ 0 wn b - nthZ 0 wn a)%R) /\
    vdot s (vsub (fst (face_other dim (dom_face D) f)) (face_left (dom_face D) f)) = (vr - left_value (dom_face D) W f)%R).
  { intros wn vr. apply (fgrad_any dim (dom_face D) WFA W wn f vr Hf' NN). cbn [dom_face fd_vertex fd_nodes]. intros E0. rewrite E0 in TS. pose proof (Rle_0_sqr (side (dm_vertex D) (nthZ [] (dm_facenodes D) f) (face_left (dom_face D) f))). unfold Rsqr in *. lra. }
  pose proof (proj2 (pa_numbers _ _ _ _ _ _ _ PA) f If) as NB. rewrite Forall_forall in NB.
  assert (VX : forall k, isnode_of D k -> at_node (dm_vertex D) k = at_node nodes (gnode D k)) by (intros k Hk; exact (proj1 (pa_node _ _ _ _ _ _ _ PA k Hk))).
  assert (EFF : forall k, isnode_of D k -> nthZ 0%R (Proofs_linsys9.eff S B n) k = shown_value nodes labels bc vb N (gnode D k)).
  { intros k Hk. unfold isnode_of in Hk. rewrite Proofs_linsys9.eff_at by (cbn [sys_of dom_sys Model_linsys.sy_G dom_face fd_vertex]; lia). unfold shown_value, Proofs_linsys1.is_dir.
    destruct (node_cases9 k Hk) as [(DN & EK)|(DN & EK)]; rewrite EK; unfold Spec_linsys.dirichlet_node in DN.
    - rewrite (proj2 (mem_In _ _) DN). reflexivity.
    - rewrite (proj2 (mem_not_In _ _) DN). apply HN. exact Hk. }
  assert (ALONG : forall s, (forall a b, In a (nthZ [] (dm_facenodes D) f) -> In b (nthZ [] (dm_facenodes D) f) -> vdot s (vsub (at_node (dm_vertex D) b) (at_node (dm_vertex D) a)) = (nthZ 0 (Proofs_linsys9.eff S B n) b - nthZ 0 (Proofs_linsys9.eff S B n) a)%R) ->
    forall a b, In a (fset D f) -> In b (fset D f) -> vdot s (vsub (at_node nodes b) (at_node nodes a)) = (shown_value nodes labels bc vb N b - shown_value nodes labels bc vb N a)%R).
  { intros s H a b Ha Hb. destruct HG as (_ & PG). apply (Permutation_in _ (Permutation_sym PG)) in Ha, Hb. apply in_map_iff in Ha as (ka & <- & Ka). apply in_map_iff in Hb as (kb & <- & Kb). specialize (H ka kb Ka Kb). rewrite !EFF, !VX in H by (apply NB; assumption). exact H. }
  unfold solution_slope.
  destruct VW as [(d & Hdd & Ndc & name & BS & _ & R) | [(name & row & one & BS & _) | (name & row & Hh & BS & _)]]; rewrite BS.
  - assert (ND : ~ In f (Model_linsys.sl_dir (lists_of D v))). { intros HD. apply (in_dir_face dim cells nodes labels epart r D PA CS bc vs w v FV f) in HD as (_ & l & Hl & El). pose proof (dirichlet_label dim cells nodes labels epart r D VM PL PA CS bc vs BV f l Hl El). lia. }
    specialize (VN ND). destruct (ANY (Proofs_linsys9.eff S B n) (value_at W (snd (face_other dim (dom_face D) f)))) as (s & Es & G1 & G2 & G3). cbn [sys_of dom_sys Model_linsys.sy_G] in VN. change (sys_of D v) with S in VN. rewrite Es in VN. exists s. split; [exact VN|]. split; [exact G1|]. split; [intros a b Ha Hb _; exact (ALONG s G2 a b Ha Hb)|].
    unfold face_other, face_left, left_value in G3. cbn [dom_face fd_name fd_cellid fd_centerc fd_halofid fd_centerh fd_ghost fd_shift] in G3. rewrite name in G3. cbn [Z.eqb fst snd value_at] in G3. destruct R as [(row & _)|(row & _)]; rewrite row in G3.
    + change (nthZ 0 [c; d] 0) with c in G3. change (nthZ 0 [c; d] 1) with d in G3. rewrite !(centre_of dim cells nodes labels epart r D PA), !HC in G3 by assumption. exact G3.
    + change (nthZ 0 [d; c] 0) with d in G3. change (nthZ 0 [d; c] 1) with c in G3. rewrite !(centre_of dim cells nodes labels epart r D PA), !HC in G3 by assumption. replace (X (gc d) - X (gc c))%R with (- (X (gc c) - X (gc d)))%R by ring. rewrite <- G3. unfold vdot, vsub. cbn [px py pz]. ring.
  - assert (OTH : forall s vr y, gradient dim s -> vdot s (vsub (fst (face_other dim (dom_face D) f)) (face_left (dom_face D) f)) = (vr - left_value (dom_face D) W f)%R -> vr = (2 * y - X (gc c))%R ->
      let o := outward cells nodes (gc c) (fset D f) in vdot s o = ((y - X (gc c)) * vdot o o / vdot o (vsub (facet_centre nodes (fset D f)) (centre dim cells nodes (gc c))))%R).
    { intros s vr y G1 G3 ->. unfold face_other, face_left, left_value in G3. cbn [dom_face fd_name fd_cellid fd_centerc fd_halofid fd_centerh fd_ghost fd_shift] in G3.
      replace (nthZ 0 (dm_name D) f =? 0) with false in G3 by lia. replace (is_periodic dim (nthZ 0 (dm_name D) f)) with false in G3 by (unfold is_periodic, is_x, is_y, is_z; lia). replace (nthZ 0 (dm_name D) f =? 10) with false in G3 by lia. cbn [fst snd value_at] in G3. rewrite row in G3. change (nthZ 0 [c; -1] 0) with c in G3.
      rewrite !(centre_of dim cells nodes labels epart r D PA), !HC in G3 by assumption.
      assert (ELf : left_of D f = c) by (unfold left_of; rewrite row; reflexivity). pose proof (pa_ghosts _ _ _ _ _ _ _ PA f _ HG name) as MI. rewrite ELf, (centre_of dim cells nodes labels epart r D PA) in MI by exact Hc.
      apply (mirror_quotient dim cells nodes labels VM (gc c) (fset D f) s _ _ FC).
      rewrite <- (mirror_reflection dim cells nodes labels VM PL (gc c) (fset D f) _ _ FC (fun E0 => centre_level dim cells nodes (gc c) E0) MI). rewrite <- G3. unfold level. destruct (Z.eqb_spec dim 2) as [E2|]; [|reflexivity]. unfold vdot, vsub. cbn [px py pz]. rewrite (G1 E2). ring. }
    assert (EL : left_value (dom_face D) W f = X (gc c)) by (unfold left_value; cbn [dom_face fd_cellid]; rewrite row; change (nthZ 0 [c; -1] 0) with c; apply HC; exact Hc).
    unfold dirichlet_flux. cbv zeta. destruct (face_cases9 f If name) as [(Hdir & EFx)|(Hdir & EFx)]; rewrite EFx.
    + specialize (VD Hdir). destruct (ANY (Model_linsys.pb_node B) (2 * nthZ 0 (Model_linsys.pb_face B) f - left_value (dom_face D) W f)%R) as (s & Es & G1 & G2 & G3). cbn [sys_of dom_sys Model_linsys.sy_G] in VD. rewrite Es in VD. exists s. split; [exact VD|]. split; [exact G1|]. split.
      * intros a b Ha Hb [HB|[HB|(Fa & Fb)]]; [congruence | discriminate HB|]. destruct HG as (_ & PG). apply (Permutation_in _ (Permutation_sym PG)) in Ha, Hb. apply in_map_iff in Ha as (ka & <- & Ka). apply in_map_iff in Hb as (kb & <- & Kb). specialize (G2 ka kb Ka Kb). rewrite !VX in G2 by (apply NB; assumption). rewrite G2.
        assert (SN : forall k, In k (nthZ [] (dm_facenodes D) f) -> node_fixed nodes labels bc vb (gnode D k) <> None -> nthZ 0%R (Model_linsys.pb_node B) k = shown_value nodes labels bc vb N (gnode D k)).
        { intros k Hk Fk. unfold shown_value. destruct (node_cases9 k (NB k Hk)) as [(DN & EK)|(DN & EK)]; rewrite EK in *; [reflexivity | contradiction]. }
        rewrite !SN by assumption. reflexivity.
      * apply (OTH s _ _ G1 G3). rewrite EL. reflexivity.
    + specialize (VN Hdir). destruct (ANY (Proofs_linsys9.eff S B n) (value_at W (snd (face_other dim (dom_face D) f)))) as (s & Es & G1 & G2 & G3). cbn [sys_of dom_sys Model_linsys.sy_G] in VN. change (sys_of D v) with S in VN. rewrite Es in VN. exists s. split; [exact VN|]. split; [exact G1|]. split; [intros a b Ha Hb _; exact (ALONG s G2 a b Ha Hb)|].
      rewrite (OTH s _ (X (gc c)) G1 G3).
      * unfold Rdiv. ring.
      * unfold face_other. cbn [dom_face fd_name]. replace (nthZ 0 (dm_name D) f =? 0) with false by lia. replace (is_periodic dim (nthZ 0 (dm_name D) f)) with false by (unfold is_periodic, is_x, is_y, is_z; lia). replace (nthZ 0 (dm_name D) f =? 10) with false by lia. cbn [fst snd value_at].
        rewrite (HGh f (gc c) one If) by (unfold left_of; rewrite row; reflexivity). rewrite free_boundary by (apply (facet_fixed_none dim nodes labels bc vs vb); exact EFx). ring.
  - assert (ND : ~ In f (Model_linsys.sl_dir (lists_of D v))). { intros HD. apply (in_dir_face dim cells nodes labels epart r D PA CS bc vs w v FV f) in HD as (_ & l & Hl & El). pose proof (dirichlet_label dim cells nodes labels epart r D VM PL PA CS bc vs BV f l Hl El). lia. }
    specialize (VN ND). destruct (ANY (Proofs_linsys9.eff S B n) (value_at W (snd (face_other dim (dom_face D) f)))) as (s & Es & G1 & G2 & G3). cbn [sys_of dom_sys Model_linsys.sy_G] in VN. change (sys_of D v) with S in VN. rewrite Es in VN. exists s. split; [exact VN|]. split; [exact G1|]. split; [intros a b Ha Hb _; exact (ALONG s G2 a b Ha Hb)|].
    unfold face_other, face_left, left_value in G3. cbn [dom_face fd_name fd_cellid fd_centerc fd_halofid fd_centerh fd_ghost fd_shift] in G3. rewrite name in G3. change (10 =? 0) with false in G3. replace (is_periodic dim 10) with false in G3 by (unfold is_periodic, is_x, is_y, is_z; lia). change (10 =? 10) with true in G3. cbn [fst snd value_at] in G3. rewrite row in G3. change (nthZ 0 [c; -10] 0) with c in G3.
    rewrite (centre_of dim cells nodes labels epart r D PA), (halo_centre dim cells nodes labels epart r D PA), HC, HH in G3 by assumption. exact G3.
Qed.
End Rank9.
