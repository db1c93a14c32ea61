(** * Proofs_run12: the faces of a cell of a rank: limiter, fluxes and face gradients in terms of the mesh. *)
From Coq Require Import Reals Lra Permutation Sorted.
From Verif Require Import Py PyLemmas Model_part Spec_part Model_label Model_conn Spec_conn Proofs_conn1 Proofs_conn2 Model_geom Spec_geom Proofs_geom1 Proofs_geom2 Proofs_geom3
  Model_halo Spec_halo Model_interp Spec_interp Proofs_interp4 Proofs_interp5 Proofs_interp6 Spec_lsq Proofs_lsq Properties_lsq Model_fvm Spec_fvm Proofs_fvm1 Proofs_fvm2 Properties_fvm Model_bc Spec_bc Spec_bc3 Proofs_label Proofs_bc Proofs_bc2 Proofs_bc3 Properties_bc3 Model_domain Spec_domain Proofs_domain1 Proofs_domain4
  Model_comm Model_parallel Spec_parallel Proofs_parallel1 Proofs_parallel6 Properties_parallel Model_run Spec_run Proofs_run1 Proofs_run2 Proofs_run3 Proofs_run4 Proofs_run5 Proofs_run6 Spec_run2 Model_run2 Proofs_run7 Proofs_run8 Proofs_run9 Proofs_run10.
Open Scope Z_scope.

Lemma in_space_grad dim g : gradient dim g -> in_space dim g = g.
Proof. intros H. unfold in_space. destruct (Z.eqb_spec dim 2) as [E|]; [|reflexivity]. rewrite <- (H E). destruct g; reflexivity. Qed.

Section Rank12.
Context (dim : Z) (cells : list (list Z)) (nodes : list pt) (labels epart : list Z) (r : Z) (D : domain).
Hypothesis VM : valid_mesh dim cells nodes labels.
Hypothesis PL : dim = 2 -> planar nodes.
Hypothesis PA : part_of dim cells nodes labels epart r D.
Hypothesis CS : consistent dim D.
Notation WF := (vm_mesh _ _ _ _ VM).
Notation gc := (gcell D).
Notation NF := (vm_nonflat _ _ _ _ VM).
Notation PR := (vm_proper _ _ _ _ VM).

(** a face, seen from one of its cells *)
Lemma face_view c f : iscell_of D c -> In f (nthZ [] (dm_faceid D) c) ->
  isface D f /\ has_facet dim cells (gc c) (fset D f) /\ gface D f (fset D f) /\
  ((exists d, iscell_of D d /\ d <> c /\ nthZ 0 (dm_name D) f = 0 /\ beside cells (gc c) (fset D f) = Some (gc d) /\ beside cells (gc d) (fset D f) = Some (gc c) /\
      (nthZ [] (dm_cellid D) f = [c; d] /\ nthZ vzero (dm_normal D) f = outward cells nodes (gc c) (fset D f) \/
       nthZ [] (dm_cellid D) f = [d; c] /\ nthZ vzero (dm_normal D) f = vscal (-1) (outward cells nodes (gc c) (fset D f)))) \/
   (1 <= nthZ 0 (dm_name D) f <= 2 * dim /\ nthZ [] (dm_cellid D) f = [c; -1] /\ only_cell dim cells (gc c) (fset D f) /\ beside cells (gc c) (fset D f) = None /\ nthZ vzero (dm_normal D) f = outward cells nodes (gc c) (fset D f)) \/
   (nthZ 0 (dm_name D) f = 10 /\ nthZ [] (dm_cellid D) f = [c; -10] /\ ishalo_of D (nthZ 0 (dm_halofid D) f) /\ beside cells (gc c) (fset D f) = Some (ghalo D (nthZ 0 (dm_halofid D) f)) /\ nthZ vzero (dm_normal D) f = outward cells nodes (gc c) (fset D f))).
Proof.
  intros Hc Hf. destruct (faces_lists dim cells nodes labels epart r D PA CS c f Hc Hf) as (_ & If & TW). destruct (fset_facet dim cells nodes labels epart r D PA f If) as (a0 & HF & HO & HGf). set (F := fset D f) in *.
  assert (FC : has_facet dim cells (gc c) F). { destruct HF as (_ & S1 & S2 & _). split; [exact (proj1 (gcell_owned dim cells nodes labels epart r D PA c Hc))|]. split; [exact S1|]. split; [exact S2|]. apply (proj1 (pa_cellfaces _ _ _ _ _ _ _ PA c f F Hc HGf)). exact Hf. }
  split; [exact If|]. split; [exact FC|]. split; [exact HGf|].
  destruct (pa_geometry _ _ _ _ _ _ _ PA f F HGf) as (HN & _ & _). pose proof (wm_dim _ _ _ WF) as Hd.
  destruct (pa_kinds _ _ _ _ _ _ _ PA f a0 F HF HGf) as [a b Ca Cb two sides row name | a Ca one row name label | a Ca Hh other sides row name].
  - left. assert (ELf : left_of D f = a) by (unfold left_of; rewrite row; reflexivity). rewrite ELf in HN. unfold cell0, cell1, fv_label in TW. cbn [dom_fv fv_cellid fv_name] in TW. rewrite row in TW. change (nthZ 0 [a; b] 0) with a in TW. change (nthZ 0 [a; b] 1) with b in TW.
    assert (Fa : has_facet dim cells (gc a) F) by (apply sides; auto). assert (Fb : has_facet dim cells (gc b) F) by (apply sides; auto).
    assert (Nab : gc a <> gc b) by (intros E; apply two, (gcell_inj dim cells nodes labels epart r D PA a b Ca Cb E)).
    assert (En := outward_unique dim cells nodes WF _ _ _ _ Fa HN (outward_ok dim cells nodes WF NF _ _ Fa)).
    assert (Bab : beside cells (gc a) F = Some (gc b)) by (apply (proj2 (beside_spec dim cells nodes WF PR (gc a) F (gc b) Fa)); auto). assert (Bba : beside cells (gc b) F = Some (gc a)) by (apply (proj2 (beside_spec dim cells nodes WF PR (gc b) F (gc a) Fb)); auto).
    destruct TW as [<-|(_ & <-)].
    + exists b. split; [exact Cb|]. split; [congruence|]. split; [exact name|]. split; [exact Bab|]. split; [exact Bba|]. left. split; [exact row | exact En].
    + exists a. split; [exact Ca|]. split; [congruence|]. split; [exact name|]. split; [exact Bba|]. split; [exact Bab|]. right. split; [exact row|]. rewrite En. exact (outward_two dim cells nodes WF NF PR (gc b) (gc a) F Fb Fa (not_eq_sym Nab)).
  - right. left. assert (ELf : left_of D f = a) by (unfold left_of; rewrite row; reflexivity). rewrite ELf in HN. unfold cell0, cell1, fv_label in TW. cbn [dom_fv fv_cellid fv_name] in TW. rewrite row in TW. change (nthZ 0 [a; -1] 0) with a in TW. destruct TW as [<-|(X0 & _)]; [|lia].
    split; [exact label|]. split; [exact row|]. split; [exact one|]. split; [exact (proj2 (beside_none dim cells nodes WF PR (gc a) F FC) one)|]. exact (outward_unique dim cells nodes WF _ _ _ _ FC HN (outward_ok dim cells nodes WF NF _ _ FC)).
  - right. right. assert (ELf : left_of D f = a) by (unfold left_of; rewrite row; reflexivity). rewrite ELf in HN. unfold cell0, cell1, fv_label in TW. cbn [dom_fv fv_cellid fv_name] in TW. rewrite row, name in TW. change (nthZ 0 [a; -10] 0) with a in TW. destruct TW as [<-|(X0 & _)]; [|discriminate X0].
    split; [exact name|]. split; [exact row|]. split; [exact Hh|]. split; [|exact (outward_unique dim cells nodes WF _ _ _ _ FC HN (outward_ok dim cells nodes WF NF _ _ FC))].
    apply (proj2 (beside_spec dim cells nodes WF PR (gc a) F _ FC)). split; [apply sides; auto|]. intros E. apply other. rewrite E. exact (proj2 (gcell_owned dim cells nodes labels epart r D PA a Ca)).
Qed.
(** a face in the row of its second cell *)
Lemma second_row c d f : iscell_of D c -> iscell_of D d -> In f (nthZ [] (dm_faceid D) c) -> beside cells (gc c) (fset D f) = Some (gc d) -> In f (nthZ [] (dm_faceid D) d).
Proof.
  intros Hc Hd Hf B. destruct (face_view c f Hc Hf) as (_ & FC & HG & _). apply (beside_spec dim cells nodes WF PR _ _ _ FC) in B as (FD & _). apply (pa_cellfaces _ _ _ _ _ _ _ PA d f _ Hd HG). apply FD.
Qed.
Lemma centre_of c : iscell_of D c -> nthZ vzero (dm_center D) c = centre dim cells nodes (gc c). Proof. intros Hc. exact (proj1 (proj2 (pa_cell _ _ _ _ _ _ _ PA c Hc))). Qed.
Lemma fcenter_of f : isface D f -> nthZ vzero (dm_fcenter D) f = facet_centre nodes (fset D f).
Proof. intros Hf. destruct (fset_facet dim cells nodes labels epart r D PA f Hf) as (a0 & HF & HO & HGf). exact (proj2 (proj2 (pa_geometry _ _ _ _ _ _ _ PA f _ HGf))). Qed.
Lemma halo_centre h : ishalo_of D h -> nthZ vzero (dm_centerh D) h = centre dim cells nodes (ghalo D h). Proof. intros Hh. exact (proj2 (proj2 (pa_halos _ _ _ _ _ _ _ PA)) h Hh). Qed.
Lemma in_row c F : iscell_of D c -> In F (facets (cell cells (gc c))) <-> exists f, In f (nthZ [] (dm_faceid D) c) /\ F = fset D f.
Proof.
  intros Hc. pose proof (fset_row dim cells nodes labels epart r D VM PA CS c Hc) as P. split.
  - intros H. apply (Permutation_in _ (Permutation_sym P)) in H. apply in_map_iff in H as (f & E & Hf). exists f. auto.
  - intros (f & Hf & ->). apply (Permutation_in _ P). apply in_map. exact Hf.
Qed.

(** ** The limiter *)
Context (bc : list (loc * bctype)) (vs : list (loc * bcval)) (X : Z -> R).
Section Lim.
Context (W : values).
Hypothesis HWF : wf_values W (zlen (dm_center D)) (zlen (dm_cellid D)) (zlen (dm_centerh D)) (dm_nhg D).
Hypothesis HC : forall c, iscell_of D c -> nthZ 0%R (w_c W) c = X (gc c).
Hypothesis HH : forall h, ishalo_of D h -> nthZ 0%R (w_halo W) h = X (ghalo D h).
Hypothesis HGh : forall f c, only_cell dim cells c (fset D f) -> isface D f -> gc (left_of D f) = c -> nthZ 0%R (w_ghost W) f = boundary_value dim nodes labels bc vs (fset D f) (X c).
Lemma across_ok c f : iscell_of D c -> In f (nthZ [] (dm_faceid D) c) -> across (dom_lim D) W c f = value_beyond dim cells nodes labels bc vs X (gc c) (fset D f).
Proof.
  intros Hc Hf. pose proof (wm_dim _ _ _ WF) as Hd. destruct (face_view c f Hc Hf) as (If & FC & HG & V). unfold across, value_beyond. cbn [dom_lim ld_name ld_cellid ld_halofid].
  destruct V as [(d & Hdd & Ndc & name & B & _ & R) | [(name & row & one & B & _) | (name & row & Hh & B & _)]]; rewrite B.
  - rewrite name. change ((0 =? 0) || (10 <? 0)) with true. cbv iota. destruct R as [(row & _)|(row & _)]; rewrite row.
    + change (nthZ 0 [c; d] 0) with c. change (nthZ 0 [c; d] 1) with d. rewrite Z.eqb_refl. apply HC. exact Hdd.
    + change (nthZ 0 [d; c] 0) with d. destruct (Z.eqb_spec d c); [contradiction|]. apply HC. exact Hdd.
  - replace ((nthZ 0 (dm_name D) f =? 0) || (10 <? nthZ 0 (dm_name D) f)) with false by lia. replace (nthZ 0 (dm_name D) f =? 10) with false by lia. apply HGh; [exact one | exact If|]. unfold left_of. rewrite row. reflexivity.
  - rewrite name. change ((10 =? 0) || (10 <? 10)) with false. change (10 =? 10) with true. cbv iota. apply HH. exact Hh.
Qed.
Lemma increment_ok gs c f : iscell_of D c -> In f (nthZ [] (dm_faceid D) c) -> gradient dim (nthZ vzero gs c) -> increment dim (dom_lim D) gs c f = rise dim cells nodes (nthZ vzero gs c) (gc c) (fset D f).
Proof.
  intros Hc Hf HG. destruct (face_view c f Hc Hf) as (If & _). unfold increment, rise. cbn [dom_lim ld_centerf ld_centerc]. cbv zeta. rewrite (centre_of c Hc), (fcenter_of f If). unfold vdot, vsub. cbn [px py pz].
  destruct (Z.eqb_spec dim 2) as [E|]; [rewrite (HG E); ring | reflexivity].
Qed.
Lemma limiter_ok gs : zlen gs = zlen (dm_center D) -> (forall c, iscell_of D c -> gradient dim (nthZ vzero gs c)) ->
  exists psi, barthlimiter dim (dom_lim D) W gs = Ok psi /\ zlen psi = zlen (dm_center D) /\
  forall c, iscell_of D c -> limiter dim cells nodes labels bc vs X (nthZ vzero gs c) (gc c) (nthZ 0%R psi c).
Proof.
  intros LG HG. pose proof (cs_limiter _ _ CS W HWF) as WL. destruct HWF as (L1 & _). destruct (pa_sizes _ _ _ _ _ _ _ PA) as (_ & S2 & _). unfold barthlimiter.
  destruct (mapM_range_ex 0%R (barth_cell dim (dom_lim D) W gs) (fun c p => iscell_of D c -> limiter dim cells nodes labels bc vs X (nthZ vzero gs c) (gc c) p) (zlen (w_c W)) (zlen_nonneg _)) as (psi & E & LP & HP).
  - intros c Hc. assert (Hc' : iscell_of D c) by (unfold iscell_of; lia). destruct (barth_cell_ok dim (dom_lim D) W gs WL ltac:(lia) c Hc) as (mm & p & Ep & (B1 & B2 & B3 & B4) & (M1 & M2 & M3)). exists p. split; [exact Ep|]. intros _.
    assert (EW : wi W c = X (gc c)) by (unfold wi; apply HC; exact Hc'). rewrite EW in *. set (s := nthZ vzero gs c) in *.
    assert (IN : forall f, In f (faces (dom_lim D) c) -> increment dim (dom_lim D) gs c f = rise dim cells nodes s (gc c) (fset D f)) by (intros f Hf; exact (increment_ok gs c f Hc' Hf (HG c Hc'))).
    assert (SN : forall y, seen (dom_lim D) W c y <-> seen_from dim cells nodes labels bc vs X (gc c) y).
    { intros y. unfold seen, seen_from. rewrite EW. split; (intros [->|H]; [left; reflexivity | right]).
      - destruct H as (f & Hf & ->). exists (fset D f). split; [apply (in_row c _ Hc'); exists f; auto | exact (across_ok c f Hc' Hf)].
      - destruct H as (F & HF & ->). apply (in_row c F Hc') in HF as (f & Hf & ->). exists f. split; [exact Hf | symmetry; exact (across_ok c f Hc' Hf)]. }
    assert (RG : forall y, seen_from dim cells nodes labels bc vs X (gc c) y -> (fst mm <= y <= snd mm)%R). { intros y Hy. apply SN in Hy as [->|(f & Hf & ->)]; [rewrite EW; exact B3 | exact (B4 f Hf)]. }
    split; [split; [lra|]|].
    + intros F HF HT. apply (in_row c F Hc') in HF as (f & Hf & ->). rewrite <- (IN f Hf) in HT |- *. exists (fst mm), (snd mm). split; [apply SN; exact B1|]. split; [apply SN; exact B2|]. exact (M2 f Hf HT).
    + intros p' (Q1 & Q2). destruct M3 as [->|(f & Hf & HT & K)]; [exact Q1|]. rewrite (IN f Hf) in *. destruct (Q2 (fset D f) ltac:(apply (in_row c _ Hc'); exists f; auto) HT) as (lo & hi & Hlo & Hhi & HB). apply RG in Hlo, Hhi.
      destruct K as [(K1 & K2)|(K1 & K2)]; [apply (Rmult_le_reg_r _ _ _ K1); lra|]. apply Ropp_le_cancel. apply (Rmult_le_reg_r (- rise dim cells nodes s (gc c) (fset D f))%R); lra.
  - exists psi. split; [exact E|]. split; [lia|]. intros c Hc. apply HP; [unfold iscell_of in Hc; lia | exact Hc].
Qed.

(** ** The gradient at the faces *)
Section FaceGrad.
Context (N : Z -> R) (n : list R).
Hypothesis LN : zlen n = zlen (dm_nodeglob D).
Hypothesis HN : forall k, isnode_of D k -> nthZ 0%R n k = N (gnode D k).
Lemma facet_slope_ok L g0 : lists_ok dim (dom_face D) L -> (forall f, isface D f -> listed L f) -> zlen g0 = zlen (dm_cellid D) ->
  exists gs, face_gradient dim (dom_face D) (dm_diamond D) L W n g0 = Ok gs /\ zlen gs = zlen (dm_cellid D) /\
  forall c f, iscell_of D c -> In f (nthZ [] (dm_faceid D) c) -> exists s, nthZ None gs f = Some s /\ facet_slope dim cells nodes labels bc vs X N (gc c) (fset D f) s.
Proof.
  intros LO LI L0. pose proof (wm_dim _ _ _ WF) as Hd. destruct (cs_faces _ _ CS) as (WFA & EI & FN). destruct HWF as (W1 & W2 & W3 & _). destruct (pa_sizes _ _ _ _ _ _ _ PA) as (_ & S2 & _ & SF & SC & SH & SV & _).
  rewrite (face_info_ok dim (dom_face D) WFA) in EI. injection EI as <-.
  destruct (face_gradient_ok dim (dom_face D) WFA W n L LO) with (g := g0) as (gs & E & LG & V); [cbn [dom_face fd_centerc]; exact W1 | cbn [dom_face fd_cellid]; exact W2 | cbn [dom_face fd_centerh]; exact W3 | cbn [dom_face fd_vertex]; lia | cbn [dom_face fd_cellid]; exact L0|].
  exists gs. split; [exact E|]. cbn [dom_face fd_cellid] in LG, V. split; [exact LG|]. intros c f Hc Hf. destruct (face_view c f Hc Hf) as (If & FC & HG & VW). assert (Hf' : 0 <= f < zlen (dm_cellid D)) by (unfold isface in If; lia).
  destruct (FN f Hf') as (NN & TS). unfold two_sided in TS. cbv zeta in TS. rewrite (cs_dim _ _ CS) in TS. destruct (V f Hf') as (V1 & _). rewrite (V1 (LI f If)).
  destruct (fgrad_any dim (dom_face D) WFA W n f (vright dim (dom_face D) W f) Hf' NN) as (s & Es & G1 & G2 & G3); [cbn [dom_face fd_vertex fd_nodes]; intros E0; rewrite E0 in TS; pose proof (Rle_0_sqr (side (dm_vertex D) (nthZ [] (dm_facenodes D) f) (face_left (dom_face D) f))); unfold Rsqr in *; lra|].
  exists s. split; [exact Es|]. split; [exact G1|]. cbn [dom_face fd_nodes fd_vertex] in G2. split.
  - intros a b Ha Hb. pose proof (proj2 (pa_numbers _ _ _ _ _ _ _ PA) f If) as NB. rewrite Forall_forall in NB. destruct HG as (_ & PG).
    apply (Permutation_in _ (Permutation_sym PG)) in Ha, Hb. apply in_map_iff in Ha as (ka & <- & Ka). apply in_map_iff in Hb as (kb & <- & Kb). specialize (G2 ka kb Ka Kb). rewrite !HN in G2 by (apply NB; assumption).
    assert (VX : forall k, isnode_of D k -> at_node (dm_vertex D) k = at_node nodes (gnode D k)) by (intros k Hk; exact (proj1 (pa_node _ _ _ _ _ _ _ PA k Hk))). rewrite !VX in G2 by (apply NB; assumption). exact G2.
  - unfold vright, face_other, face_left, left_value in G3. cbn [dom_face fd_name fd_cellid fd_centerc fd_halofid fd_centerh fd_ghost fd_shift] in G3. unfold point_beyond, value_beyond.
    destruct VW as [(d & Hdd & Ndc & name & B & _ & R) | [(name & row & one & B & _) | (name & row & Hh & B & _)]]; rewrite B.
    + rewrite name in G3. cbn [Z.eqb fst snd value_at] in G3. destruct R as [(row & _)|(row & _)]; rewrite row in G3.
      * change (nthZ 0 [c; d] 0) with c in G3. change (nthZ 0 [c; d] 1) with d in G3. rewrite !centre_of, !HC in G3 by assumption. exact G3.
      * change (nthZ 0 [d; c] 0) with d in G3. change (nthZ 0 [d; c] 1) with c in G3. rewrite !centre_of, !HC in G3 by assumption. replace (X (gc d) - X (gc c))%R with (- (X (gc c) - X (gc d)))%R by ring. rewrite <- G3. unfold vdot, vsub. cbn [px py pz]. ring.
    + replace (nthZ 0 (dm_name D) f =? 0) with false in G3 by lia. replace (is_periodic dim (nthZ 0 (dm_name D) f)) with false in G3 by (unfold is_periodic, is_x, is_y, is_z; lia). replace (nthZ 0 (dm_name D) f =? 10) with false in G3 by lia. cbn [fst snd value_at] in G3. rewrite row in G3. change (nthZ 0 [c; -1] 0) with c in G3.
      assert (ELf : left_of D f = c) by (unfold left_of; rewrite row; reflexivity). rewrite (HGh f (gc c) one If) in G3 by (rewrite ELf; reflexivity). rewrite !centre_of, !HC in G3 by assumption. rewrite <- G3.
      pose proof (pa_ghosts _ _ _ _ _ _ _ PA f _ HG name) as MI. rewrite ELf, centre_of in MI by exact Hc.
      rewrite <- (mirror_reflection dim cells nodes labels VM PL (gc c) (fset D f) _ _ FC (fun E0 => centre_level dim cells nodes (gc c) E0) MI).
      unfold level. destruct (Z.eqb_spec dim 2) as [E2|]; [|reflexivity]. unfold vdot, vsub. cbn [px py pz]. rewrite (G1 E2). ring.
    + rewrite name in G3. change (10 =? 0) with false in G3. replace (is_periodic dim 10) with false in G3 by (unfold is_periodic, is_x, is_y, is_z; lia). change (10 =? 10) with true in G3. cbn [fst snd value_at] in G3. rewrite row in G3. change (nthZ 0 [c; -10] 0) with c in G3.
      rewrite centre_of, halo_centre, HC, HH in G3 by assumption. exact G3.
Qed.
End FaceGrad.
End Lim.

(** ** The fluxes *)
Section Flux.
Context (order : Z) (U : pt) (Sl : Z -> pt) (Ps : Z -> R) (A : advected) (vel : list pt).
Hypothesis HV : forall f, isface D f -> nthZ vzero vel f = U.
Hypothesis HS : forall c, iscell cells c -> gradient dim (Sl c).
Hypothesis AC : forall c, iscell_of D c -> nthZ 0%R (ad_c A) c = X (gc c) /\ nthZ vzero (ad_grad A) c = Sl (gc c) /\ nthZ 0%R (ad_psi A) c = Ps (gc c).
Hypothesis AH : forall h, ishalo_of D h -> nthZ 0%R (ad_halo A) h = X (ghalo D h) /\ nthZ vzero (ad_gradh A) h = Sl (ghalo D h) /\ nthZ 0%R (ad_psih A) h = Ps (ghalo D h).
Hypothesis AG : forall f c, only_cell dim cells c (fset D f) -> isface D f -> gc (left_of D f) = c -> nthZ 0%R (ad_ghost A) f = boundary_value dim nodes labels bc vs (fset D f) (X c).
Notation rec c F := (reconstructed dim cells nodes order X Sl Ps c F).
Lemma rec_ok w psi g x f c : iscell cells c -> isface D f -> w = X c -> psi = Ps c -> g = Sl c -> x = centre dim cells nodes c -> reconstruct dim order w psi g x (face_center (dom_fv D) f) = rec c (fset D f).
Proof. intros Hc If -> -> -> ->. unfold reconstruct, reconstructed, rise, face_center. cbn [dom_fv fv_centerf]. rewrite (in_space_grad dim _ (HS c Hc)), (fcenter_of f If), minus_IZR. reflexivity. Qed.
Lemma carried_face c f : iscell_of D c -> In f (nthZ [] (dm_faceid D) c) ->
  leaves (dom_fv D) (fv_flux dim order (dom_fv D) A vel) c f = carried dim cells nodes labels bc vs order U X Sl Ps (gc c) (fset D f).
Proof.
  intros Hc Hf. pose proof (wm_dim _ _ _ WF) as Hd. destruct (face_view c f Hc Hf) as (If & FC & HG & VW). set (F := fset D f) in *. pose proof (proj1 (gcell_owned dim cells nodes labels epart r D PA c Hc)) as GC. destruct (AC c Hc) as (A1 & A2 & A3).
  unfold leaves, fv_flux, throughput, left_state, right_state, cell0, cell1, fv_label. cbn [dom_fv fv_cellid fv_name fv_normal fv_halofid fv_centerc fv_centerh]. cbv zeta. fold (dom_fv D). rewrite (HV f If). unfold carried. cbv zeta.
  destruct VW as [(d & Hdd & Ndc & name & B & _ & Rr) | [(name & row & one & B & En) | (name & row & Hh & B & En)]]; rewrite B.
  - rewrite name. cbn [Z.eqb]. destruct (AC d Hdd) as (D1 & D2 & D3). pose proof (proj1 (gcell_owned dim cells nodes labels epart r D PA d Hdd)) as GD. destruct Rr as [(row & En)|(row & En)]; rewrite row, En.
    + change (nthZ 0 [c; d] 0) with c. change (nthZ 0 [c; d] 1) with d. rewrite Z.eqb_refl. destruct (Z.eqb_spec d c); [contradiction|]. cbn [andb]. rewrite (rec_ok _ _ _ _ f (gc c) GC If A1 A3 A2 (centre_of c Hc)), (rec_ok _ _ _ _ f (gc d) GD If D1 D3 D2 (centre_of d Hdd)). fold F. ring.
    + change (nthZ 0 [d; c] 0) with d. change (nthZ 0 [d; c] 1) with c. rewrite Z.eqb_refl. destruct (Z.eqb_spec d c); [contradiction|]. cbn [andb]. rewrite (rec_ok _ _ _ _ f (gc c) GC If A1 A3 A2 (centre_of c Hc)), (rec_ok _ _ _ _ f (gc d) GD If D1 D3 D2 (centre_of d Hdd)). fold F.
      set (q := vdot U (outward cells nodes (gc c) F)). replace (vdot U (vscal (-1) (outward cells nodes (gc c) F))) with (- q)%R by (unfold q, vdot, vscal; cbn [px py pz]; ring). rewrite Rminus_0_l, upwind_opp. rewrite Ropp_involutive. reflexivity.
  - rewrite row, En. change (nthZ 0 [c; -1] 0) with c. rewrite Z.eqb_refl. destruct (Z.eqb_spec (nthZ 0 (dm_name D) f) 0); [lia|]. replace (is_periodic dim (nthZ 0 (dm_name D) f)) with false by (unfold is_periodic, is_x, is_y, is_z; lia). destruct (Z.eqb_spec (nthZ 0 (dm_name D) f) 10); [lia|]. cbn [andb].
    rewrite (rec_ok _ _ _ _ f (gc c) GC If A1 A3 A2 (centre_of c Hc)). rewrite (AG f (gc c) one If) by (unfold left_of; rewrite row; reflexivity). fold F. ring.
  - rewrite row, En, name. change (nthZ 0 [c; -10] 0) with c. rewrite Z.eqb_refl. change (10 =? 0) with false. replace (is_periodic dim 10) with false by (unfold is_periodic, is_x, is_y, is_z; lia). change (10 =? 10) with true. cbn [andb]. destruct (AH _ Hh) as (H1 & H2 & H3).
    assert (GH : iscell cells (ghalo D (nthZ 0 (dm_halofid D) f))) by (apply (beside_spec dim cells nodes WF PR _ _ _ FC) in B as (B & _); apply B).
    rewrite (rec_ok _ _ _ _ f (gc c) GC If A1 A3 A2 (centre_of c Hc)), (rec_ok _ _ _ _ f _ GH If H1 H3 H2 (halo_centre _ Hh)). fold F. ring.
Qed.
End Flux.
Lemma diffused_face K gs c f : iscell_of D c -> In f (nthZ [] (dm_faceid D) c) -> leaves (dom_fv D) (diffusion (dom_fv D) gs K) c f = diffused cells nodes K (nthZ vzero gs f) (gc c) (fset D f).
Proof.
  intros Hc Hf. pose proof (wm_dim _ _ _ WF) as Hd. destruct (face_view c f Hc Hf) as (If & FC & HG & VW). unfold leaves, diffusion, cell0, cell1, fv_label, diffused. cbn [dom_fv fv_cellid fv_name fv_normal]. cbv zeta.
  destruct VW as [(d & Hdd & Ndc & name & B & _ & Rr) | [(name & row & one & B & En) | (name & row & Hh & B & En)]].
  - rewrite name. cbn [Z.eqb]. destruct Rr as [(row & En)|(row & En)]; rewrite row, En.
    + change (nthZ 0 [c; d] 0) with c. change (nthZ 0 [c; d] 1) with d. rewrite Z.eqb_refl. destruct (Z.eqb_spec d c); [contradiction|]. cbn [andb]. ring.
    + change (nthZ 0 [d; c] 0) with d. change (nthZ 0 [d; c] 1) with c. rewrite Z.eqb_refl. destruct (Z.eqb_spec d c); [contradiction|]. cbn [andb]. unfold vdot, vscal. cbn [px py pz]. ring.
  - rewrite row, En. change (nthZ 0 [c; -1] 0) with c. rewrite Z.eqb_refl. destruct (Z.eqb_spec (nthZ 0 (dm_name D) f) 0); [lia|]. cbn [andb]. ring.
  - rewrite row, En, name. change (nthZ 0 [c; -10] 0) with c. rewrite Z.eqb_refl. change (10 =? 0) with false. cbn [andb]. ring.
Qed.
End Rank12.
