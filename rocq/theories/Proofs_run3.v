(** * Proofs_run3: what a rank computes is the scheme on its cells. *)
From Coq Require Import Reals Lra Permutation Sorted.
From Verif Require Import Py PyLemmas Model_part Spec_part Model_label Model_conn Spec_conn Proofs_conn1 Proofs_conn2 Model_geom Spec_geom Proofs_geom1 Proofs_geom2 Proofs_geom3
  Model_interp Spec_interp Model_fvm Spec_fvm Proofs_fvm1 Proofs_fvm2 Model_bc Spec_bc Model_domain Spec_domain Proofs_domain1 Proofs_domain4 Model_parallel Spec_parallel Proofs_parallel1
  Properties_parallel Properties_fvm Model_comm Model_run Spec_run Proofs_run1 Proofs_run2.
Open Scope Z_scope.

Section Rank.
Context (dim : Z) (cells : list (list Z)) (nodes : list pt) (labels epart : list Z) (r : Z) (D : domain).
Hypothesis VM : valid_mesh dim cells nodes labels.
Hypothesis PA : part_of dim cells nodes labels epart r D.
Hypothesis CS : consistent dim D.
Notation WF := (vm_mesh _ _ _ _ VM).
Notation gc := (gcell D).

Lemma gcell_owned c : iscell_of D c -> iscell cells (gc c) /\ owner epart (gc c) = r.
Proof.
  intros Hc. assert (HI : In (gc c) (owned cells epart r)) by (rewrite <- (pa_cells _ _ _ _ _ _ _ PA); apply nthZ_In; exact Hc). unfold owned in HI. apply filter_In in HI as (X & Y). split; [apply in_range; exact X | lia].
Qed.
Lemma gcell_inj a b : iscell_of D a -> iscell_of D b -> gc a = gc b -> a = b.
Proof.
  intros Ha Hb. apply nthZ_inj_NoDup; try assumption. rewrite (pa_cells _ _ _ _ _ _ _ PA). unfold owned. apply NoDup_filter, NoDup_range.
Qed.
Lemma gcell_onto c : iscell cells c -> owner epart c = r -> exists a, iscell_of D a /\ gc a = c.
Proof.
  intros Hc Ho. assert (HI : In c (dm_loctoglob D)). { rewrite (pa_cells _ _ _ _ _ _ _ PA). unfold owned. apply filter_In. split; [apply in_range; exact Hc | lia]. }
  destruct (In_nthZ (-1) _ _ HI) as (a & Ha & E). exists a. split; assumption.
Qed.
(** the facet of the mesh that face f is *)
Definition fset (f : Z) : list Z := np_sort (map (gnode D) (nthZ [] (dm_facenodes D) f)).
Lemma fset_eq f F c : has_facet dim cells c F -> gface D f F -> fset f = F.
Proof. intros HF (_ & P). unfold fset. rewrite (np_sort_perm_eq _ _ P). apply np_sort_id. exact (proj1 (proj2 HF)). Qed.
Lemma fset_facet f : isface D f -> exists c, has_facet dim cells c (fset f) /\ owner epart c = r /\ gface D f (fset f).
Proof. intros Hf. destruct (pa_faces _ _ _ _ _ _ _ PA f Hf) as (c & F & HF & HO & HG). pose proof (fset_eq f F c HF HG) as E. rewrite E. exists c. auto. Qed.
Lemma faces_lists c f : iscell_of D c -> In f (nthZ [] (dm_faceid D) c) ->
  In f (all_faces (dom_lists D)) /\ isface D f /\ (cell0 (dom_fv D) f = c \/ fv_label (dom_fv D) f = 0 /\ cell1 (dom_fv D) f = c).
Proof.
  intros Hc Hf. destruct (cs_lists_faces _ _ CS) as (L1 & _ & LP). destruct (pa_sizes _ _ _ _ _ _ _ PA) as (_ & _ & _ & SF & SC & _).
  assert (Hc' : 0 <= c < zlen (dm_faceid D)) by (rewrite SF; exact Hc). apply (Permutation_in f (LP c Hc')) in Hf. apply filter_In in Hf as (H1 & H2). split; [exact H1|]. split.
  - apply (Permutation_in f (cs_each_face_once _ _ CS)) in H1. apply in_range in H1. unfold isface. rewrite <- SC. exact H1.
  - apply orb_prop in H2 as [H2|H2]; [left; lia|right]. apply andb_prop in H2 as (H2 & H3). lia.
Qed.
Lemma faceid_NoDup c : iscell_of D c -> NoDup (nthZ [] (dm_faceid D) c).
Proof.
  intros Hc. destruct (cs_lists_faces _ _ CS) as (L1 & _ & LP). destruct (pa_sizes _ _ _ _ _ _ _ PA) as (_ & _ & _ & SF & SC & _).
  assert (Hc' : 0 <= c < zlen (dm_faceid D)) by (rewrite SF; exact Hc). apply (Permutation_NoDup (Permutation_sym (LP c Hc'))). apply NoDup_filter. apply (Permutation_NoDup (Permutation_sym (cs_each_face_once _ _ CS))). apply NoDup_range.
Qed.
Lemma fset_row c : iscell_of D c -> Permutation (map fset (nthZ [] (dm_faceid D) c)) (facets (cell cells (gc c))).
Proof.
  intros Hc. destruct (gcell_owned c Hc) as (Gc & Oc). apply NoDup_Permutation.
  - apply NoDup_map_on; [|apply faceid_NoDup; exact Hc]. intros f f' Hf Hf' E. destruct (faces_lists c f Hc Hf) as (_ & If & _). destruct (faces_lists c f' Hc Hf') as (_ & If' & _).
    destruct (fset_facet f If) as (a & HF & HO & HG). destruct (fset_facet f' If') as (a' & HF' & HO' & HG'). destruct (pa_facets _ _ _ _ _ _ _ PA a _ HF HO) as (f0 & _ & U). rewrite (U f HG). symmetry. apply U. rewrite E. exact HG'.
  - apply (facets_NoDup dim cells nodes WF). exact Gc.
  - intros F. rewrite (facets_iff dim cells nodes WF (gc c) F Gc), in_map_iff. split.
    + intros (f & <- & Hf). destruct (faces_lists c f Hc Hf) as (_ & If & _). destruct (fset_facet f If) as (a & HF & HO & HG). split; [exact Gc|]. destruct HF as (_ & A & B & _). split; [exact A|]. split; [exact B|].
      apply (proj1 (pa_cellfaces _ _ _ _ _ _ _ PA c f _ Hc HG)). exact Hf.
    + intros HF. destruct (pa_facets _ _ _ _ _ _ _ PA _ F HF Oc) as (f & HG & _). exists f. split; [exact (fset_eq f F _ HF HG)|]. apply (proj2 (pa_cellfaces _ _ _ _ _ _ _ PA c f F Hc HG)). exact (proj2 (proj2 (proj2 HF))).
Qed.
(** a sum over all the faces is a sum over the facets of the cell *)
Lemma sum_faces (x : Z -> R) (y : list Z -> R) c : iscell_of D c -> (forall f, In f (nthZ [] (dm_faceid D) c) -> leaves (dom_fv D) x c f = y (fset f)) ->
  rsum (map (leaves (dom_fv D) x c) (all_faces (dom_lists D))) = rsum (map y (facets (cell cells (gc c)))).
Proof.
  intros Hc H. destruct (cs_lists_faces _ _ CS) as (L1 & _ & LP). destruct (pa_sizes _ _ _ _ _ _ _ PA) as (_ & _ & _ & SF & SC & _).
  assert (Hc' : 0 <= c < zlen (dm_faceid D)) by (rewrite SF; exact Hc).
  transitivity (rsum (map (leaves (dom_fv D) x c) (nthZ [] (dm_faceid D) c))).
  - rewrite (rsum_perm _ _ (Permutation_map _ (LP c Hc'))). rewrite rsum_filter. apply rsum_map_ext. intros f _. unfold leaves.
    destruct (cell0 (dom_fv D) f =? c); cbn [orb]; [reflexivity|]. destruct ((fv_label (dom_fv D) f =? 0) && (cell1 (dom_fv D) f =? c)); [reflexivity | ring].
  - rewrite <- (rsum_perm _ _ (Permutation_map y (fset_row c Hc))). rewrite map_map. apply rsum_map_ext. exact H.
Qed.
(** the normal of a face, seen from one of its cells *)
Lemma normal_left f c : has_facet dim cells c (fset f) -> gface D f (fset f) -> iscell_of D (left_of D f) -> has_facet dim cells (gc (left_of D f)) (fset f) ->
  nthZ vzero (dm_normal D) f = outward cells nodes (gc (left_of D f)) (fset f).
Proof.
  intros _ HG _ HF. destruct (pa_geometry _ _ _ _ _ _ _ PA f _ HG) as (HO & _). exact (outward_unique dim cells nodes WF _ _ _ _ HF HO (outward_ok dim cells nodes WF (vm_nonflat _ _ _ _ VM) _ _ HF)).
Qed.

(** flux through a face, for a quantity that is the upstream value times the throughput *)
Variables (bc : list (loc * bctype)) (vs : list (loc * bcval)) (U : pt) (X : Z -> R) (A : advected) (vel : list pt).
Hypothesis HV : forall f, isface D f -> nthZ vzero vel f = U.
Hypothesis HC : forall c, iscell_of D c -> nthZ 0%R (ad_c A) c = X (gc c).
Hypothesis HH : forall h, ishalo_of D h -> nthZ 0%R (ad_halo A) h = X (ghalo D h).
Hypothesis HG : forall f c, only_cell dim cells c (fset f) -> isface D f -> gc (left_of D f) = c -> nthZ 0%R (ad_ghost A) f = boundary_value dim nodes labels bc vs (fset f) (X c).
Lemma first_order w psi g x y : reconstruct dim 1 w psi g x y = w.
Proof. unfold reconstruct. replace (IZR 1 - 1)%R with 0%R by (cbn; ring). ring. Qed.
Lemma upwind_opp q x y : (- (q * if Rle_dec 0 q then x else y))%R = (- q * if Rle_dec 0 (- q) then y else x)%R.
Proof. destruct (Rle_dec 0 q), (Rle_dec 0 (- q)); try ring; [assert (q = 0%R) by lra; subst; ring | exfalso; lra]. Qed.
Lemma flux_face c f : iscell_of D c -> In f (nthZ [] (dm_faceid D) c) ->
  leaves (dom_fv D) (fv_flux dim 1 (dom_fv D) A vel) c f = leaving dim cells nodes labels bc vs U X (gc c) (fset f).
Proof.
  intros Hc Hf. pose proof (wm_dim _ _ _ WF) as Hdim. destruct (faces_lists c f Hc Hf) as (_ & If & TW). destruct (fset_facet f If) as (a0 & HF & HO & HGf). set (F := fset f) in *.
  assert (FC : has_facet dim cells (gc c) F). { destruct HF as (_ & S1 & S2 & _). split; [exact (proj1 (gcell_owned c Hc))|]. split; [exact S1|]. split; [exact S2|]. apply (proj1 (pa_cellfaces _ _ _ _ _ _ _ PA c f F Hc HGf)). exact Hf. }
  destruct (pa_geometry _ _ _ _ _ _ _ PA f F HGf) as (HN & _ & _).
  assert (LS : forall n, nthZ vzero (dm_normal D) f = n -> fv_flux dim 1 (dom_fv D) A vel f = (vdot U n * if Rle_dec 0 (vdot U n) then nthZ 0%R (ad_c A) (cell0 (dom_fv D) f) else right_state dim 1 (dom_fv D) A f)%R).
  { intros n En. unfold fv_flux, throughput, left_state. cbv zeta. rewrite first_order. cbn [dom_fv fv_normal]. rewrite En, (HV f If). reflexivity. }
  destruct (pa_kinds _ _ _ _ _ _ _ PA f a0 F HF HGf) as [a b Ca Cb two sides row name | a Ca one row name label | a Ca Hh other sides row name].
  - assert (E0 : cell0 (dom_fv D) f = a) by (unfold cell0; cbn [dom_fv fv_cellid]; rewrite row; reflexivity). assert (E1 : cell1 (dom_fv D) f = b) by (unfold cell1; cbn [dom_fv fv_cellid]; rewrite row; reflexivity).
    assert (EL : fv_label (dom_fv D) f = 0) by exact name. assert (ELf : left_of D f = a) by (unfold left_of; rewrite row; reflexivity). rewrite ELf in HN.
    assert (Fa : has_facet dim cells (gc a) F) by (apply sides; auto). assert (Fb : has_facet dim cells (gc b) F) by (apply sides; auto).
    assert (Nab : gc a <> gc b) by (intros E; apply two, (gcell_inj a b Ca Cb E)).
    assert (En := outward_unique dim cells nodes WF _ _ _ _ Fa HN (outward_ok dim cells nodes WF (vm_nonflat _ _ _ _ VM) _ _ Fa)).
    rewrite E0, E1 in TW. unfold leaves. rewrite E0, E1, EL. cbn [Z.eqb andb]. specialize (LS _ En). rewrite E0 in LS.
    assert (RS : right_state dim 1 (dom_fv D) A f = X (gc b)). { unfold right_state. cbv zeta. rewrite EL, E1. cbn [Z.eqb]. rewrite first_order. apply HC. exact Cb. }
    rewrite RS, (HC a Ca) in LS. rewrite LS. unfold leaving, value_beyond. cbv zeta. destruct TW as [<-|(_ & <-)].
    + rewrite Z.eqb_refl. destruct (Z.eqb_spec b a) as [E|_]; [congruence|]. rewrite (proj2 (beside_spec dim cells nodes WF (vm_proper _ _ _ _ VM) (gc a) F (gc b) Fa) (conj Fb (not_eq_sym Nab))). ring.
    + rewrite Z.eqb_refl. destruct (Z.eqb_spec a b) as [E|_]; [congruence|]. rewrite (proj2 (beside_spec dim cells nodes WF (vm_proper _ _ _ _ VM) (gc b) F (gc a) Fb) (conj Fa Nab)).
      rewrite (outward_two dim cells nodes WF (vm_nonflat _ _ _ _ VM) (vm_proper _ _ _ _ VM) (gc a) (gc b) F Fa Fb Nab).
      replace (vdot U (vscal (-1) (outward cells nodes (gc a) F))) with (- vdot U (outward cells nodes (gc a) F))%R by (unfold vdot, vscal; cbn [px py pz]; ring). rewrite <- upwind_opp. ring.
  - assert (E0 : cell0 (dom_fv D) f = a) by (unfold cell0; cbn [dom_fv fv_cellid]; rewrite row; reflexivity). assert (ELf : left_of D f = a) by (unfold left_of; rewrite row; reflexivity). rewrite ELf in HN.
    assert (EL : fv_label (dom_fv D) f = nthZ 0 (dm_name D) f) by reflexivity. rewrite E0 in TW. destruct TW as [<-|(X0 & _)]; [|rewrite EL in X0; lia].
    assert (En := outward_unique dim cells nodes WF _ _ _ _ FC HN (outward_ok dim cells nodes WF (vm_nonflat _ _ _ _ VM) _ _ FC)). specialize (LS _ En). rewrite E0, (HC a Ca) in LS.
    assert (RS : right_state dim 1 (dom_fv D) A f = boundary_value dim nodes labels bc vs F (X (gc a))).
    { unfold right_state. cbv zeta. rewrite EL. destruct (Z.eqb_spec (nthZ 0 (dm_name D) f) 0); [lia|]. destruct (is_periodic dim (nthZ 0 (dm_name D) f)) eqn:IP; [exfalso; unfold is_periodic, is_x, is_y, is_z in IP; lia|]. destruct (Z.eqb_spec (nthZ 0 (dm_name D) f) 10); [lia|]. apply HG; [exact one | exact If | congruence]. }
    unfold leaves. rewrite E0, Z.eqb_refl, LS, RS. destruct (Z.eqb_spec (fv_label (dom_fv D) f) 0); [lia|]. cbn [andb]. unfold leaving, value_beyond. cbv zeta. rewrite (proj2 (beside_none dim cells nodes WF (vm_proper _ _ _ _ VM) (gc a) F FC) one). ring.
  - assert (E0 : cell0 (dom_fv D) f = a) by (unfold cell0; cbn [dom_fv fv_cellid]; rewrite row; reflexivity). assert (ELf : left_of D f = a) by (unfold left_of; rewrite row; reflexivity). rewrite ELf in HN.
    assert (EL : fv_label (dom_fv D) f = 10) by exact name. rewrite E0, EL in TW. destruct TW as [<-|(X0 & _)]; [|discriminate X0].
    assert (En := outward_unique dim cells nodes WF _ _ _ _ FC HN (outward_ok dim cells nodes WF (vm_nonflat _ _ _ _ VM) _ _ FC)). specialize (LS _ En). rewrite E0, (HC a Ca) in LS.
    assert (Fh : has_facet dim cells (ghalo D (nthZ 0 (dm_halofid D) f)) F) by (apply sides; auto).
    assert (Nah : ghalo D (nthZ 0 (dm_halofid D) f) <> gc a) by (intros E; apply other; rewrite E; exact (proj2 (gcell_owned a Ca))).
    assert (RS : right_state dim 1 (dom_fv D) A f = X (ghalo D (nthZ 0 (dm_halofid D) f))).
    { unfold right_state. cbv zeta. rewrite EL. destruct (is_periodic dim 10) eqn:IP; [exfalso; unfold is_periodic, is_x, is_y, is_z in IP; lia|]. cbn [Z.eqb Pos.eqb]. rewrite first_order. cbn [dom_fv fv_halofid]. apply HH. exact Hh. }
    unfold leaves. rewrite E0, Z.eqb_refl, EL, LS, RS. cbn [Z.eqb andb]. unfold leaving, value_beyond. cbv zeta. rewrite (proj2 (beside_spec dim cells nodes WF (vm_proper _ _ _ _ VM) (gc a) F _ FC) (conj Fh Nah)). ring.
Qed.
End Rank.
