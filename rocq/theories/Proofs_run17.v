(** * Proofs_run17: the shallow-water kernels of a rank in terms of the mesh: fluxes and residual. *)
From Coq Require Import Reals Lra Permutation Sorted.
From Verif Require Import Py PyLemmas Model_part Spec_part Model_label Model_conn Spec_conn Proofs_conn1 Proofs_conn2 Model_geom Spec_geom Proofs_geom1 Proofs_geom2 Proofs_geom3
  Model_halo Spec_halo Model_interp Spec_interp Spec_lsq Proofs_lsq Model_fvm Spec_fvm Proofs_fvm1 Proofs_fvm2 Properties_fvm Model_bc Spec_bc Spec_bc3 Proofs_label Proofs_bc Proofs_bc2 Model_domain Spec_domain
  Model_comm Model_parallel Spec_parallel Proofs_parallel1 Model_run Spec_run Proofs_run1 Proofs_run2 Proofs_run3 Proofs_run4 Proofs_run5 Spec_run2 Model_run2 Proofs_run7 Proofs_run8 Proofs_run9 Proofs_run10 Proofs_run11 Proofs_run12.
From Verif Require Import Model_sw Proofs_sw5 Proofs_sw6 Spec_run4.
From Verif Require Spec_sw Properties_sw.
Open Scope Z_scope.

Lemma outward_flat cells nodes labels c F : valid_mesh 2 cells nodes labels -> has_facet 2 cells c F -> pz (outward cells nodes c F) = 0%R.
Proof.
  intros VM HF. destruct (outward_ok 2 cells nodes (vm_mesh _ _ _ _ VM) (vm_nonflat _ _ _ _ VM) c F HF) as (A & _).
  assert (Z0 : pz (area_vector nodes F) = 0%R). { destruct HF as (_ & _ & LF & _). destruct F as [|a [|b [|d F]]]; unfold zlen in LF; cbn [length] in LF; try lia. reflexivity. }
  destruct A as [-> | ->]; [exact Z0|]. unfold vscal. cbn [pz]. rewrite Z0. ring.
Qed.
Lemma outward_measures cells nodes labels c F : valid_mesh 2 cells nodes labels -> has_facet 2 cells c F ->
  let n := outward cells nodes c F in Spec_sw.measures n (sqrt (vdot n n)).
Proof.
  intros VM HF n. pose proof (outward_flat cells nodes labels c F VM HF) as Z0. fold n in Z0. pose proof (area_nonzero _ _ _ _ VM c F HF) as NZ.
  destruct (outward_ok 2 cells nodes (vm_mesh _ _ _ _ VM) (vm_nonflat _ _ _ _ VM) c F HF) as (A & _). fold n in A.
  assert (P : (0 < vdot n n)%R). { assert (vdot n n = vdot (area_vector nodes F) (area_vector nodes F)) as -> by (destruct A as [-> | ->]; unfold vdot, vscal; cbn [px py pz]; ring).
    set (a := area_vector nodes F) in *. unfold vdot in *. pose proof (Rle_0_sqr (px a)). pose proof (Rle_0_sqr (py a)). pose proof (Rle_0_sqr (pz a)). unfold Rsqr in *. lra. }
  split; [apply sqrt_lt_R0, P|]. rewrite pow2_sqrt by lra. unfold vdot. rewrite Z0. ring.
Qed.
Lemma oopp5_invol o : oopp5 (oopp5 o) = o.
Proof. destruct o as [[a b c d e]|]; [|reflexivity]. cbn. unfold q5_opp. cbn [q_h q_hu q_hv q_hc q_Z]. rewrite !Ropp_involutive. reflexivity. Qed.

Section Rank17.
Context (cells : list (list Z)) (nodes : list pt) (labels epart : list Z) (r : Z) (D : domain).
Hypothesis VM : valid_mesh 2 cells nodes labels.
Hypothesis PL : planar nodes.
Hypothesis PA : part_of 2 cells nodes labels epart r D.
Hypothesis CS : consistent 2 D.
Notation WF := (vm_mesh _ _ _ _ VM).
Notation NF := (vm_nonflat _ _ _ _ VM).
Notation PR := (vm_proper _ _ _ _ VM).
Notation gc := (gcell D).
Notation X := (dom_fv D).
Notation row c := (nthZ [] (dm_faceid D) c).
Context (B : flow) (order : Z) (W : Z -> q5) (Sl Tl : Z -> pt) (Ps : Z -> R) (A : swdata).
Hypothesis WA : Spec_sw.wf_swdata X (dm_mesure D) A.
Hypothesis HC : forall c, iscell_of D c -> nthZ q5_zero (sw_c A) c = W (gc c) /\ nthZ vzero (sw_gradh A) c = Sl (gc c) /\ nthZ vzero (sw_gradc A) c = Tl (gc c) /\ nthZ 0%R (sw_psi A) c = Ps (gc c).
Hypothesis HH : forall h, ishalo_of D h -> nthZ q5_zero (sw_halo A) h = W (ghalo D h) /\ nthZ vzero (sw_gradhh A) h = Sl (ghalo D h) /\ nthZ vzero (sw_gradch A) h = Tl (ghalo D h) /\ nthZ 0%R (sw_psih A) h = Ps (ghalo D h).
Hypothesis HG : forall f c, only_cell 2 cells c (fset D f) -> isface D f -> gc (left_of D f) = c -> nthZ q5_zero (sw_ghost A) f = outside cells nodes labels B W c (fset D f).
Hypothesis HS : forall c, iscell cells c -> gradient 2 (Sl c) /\ gradient 2 (Tl c).
Hypothesis H1 : order <> 2 -> forall c, iscell cells c -> Sl c = vzero /\ Tl c = vzero.
Notation here c F := (at_facet cells nodes order W Sl Tl Ps c F).
Notation phi c F := (flux cells nodes labels B order W Sl Tl Ps c F).

Lemma side_at c f x : iscell cells c -> isface D f -> x = centre 2 cells nodes c ->
  Spec_sw.sw_side order (W c) (Ps c) (Sl c) (Tl c) x (face_center X f) = here c (fset D f).
Proof.
  intros Hc Hf ->. unfold Spec_sw.sw_side, at_facet. destruct (order =? 2) eqn:EO.
  - apply Z.eqb_eq in EO. subst order.
    rewrite (rec_ok 2 cells nodes labels epart r D PA (fun c => q_h (W c)) 2 Sl Ps (fun c Hc => proj1 (HS c Hc)) _ _ _ _ f c Hc Hf eq_refl eq_refl eq_refl eq_refl).
    rewrite (rec_ok 2 cells nodes labels epart r D PA (fun c => q_hc (W c)) 2 Tl Ps (fun c Hc => proj2 (HS c Hc)) _ _ _ _ f c Hc Hf eq_refl eq_refl eq_refl eq_refl). reflexivity.
  - apply Z.eqb_neq in EO. destruct (H1 EO c Hc) as (-> & ->). destruct (W c) as [a b d e g]. cbn [q_h q_hu q_hv q_hc q_Z].
    f_equal; unfold reconstruct, in_space, vdot, vzero; cbn [px py pz]; cbn; ring.
Qed.
Lemma cell_at c f : iscell_of D c -> isface D f -> Spec_sw.cell_side order X A c f = here (gc c) (fset D f).
Proof.
  intros Hc Hf. unfold Spec_sw.cell_side. destruct (HC c Hc) as (-> & -> & -> & ->). apply side_at; [|exact Hf|].
  - exact (proj1 (gcell_owned 2 cells nodes labels epart r D PA c Hc)).
  - exact (centre_of 2 cells nodes labels epart r D PA c Hc).
Qed.
(** the flux through face f, seen from its cell c *)
Lemma face_flux c f : iscell_of D c -> In f (row c) ->
  Spec_sw.sw_flux order X (dm_mesure D) A f = if cell0 X f =? c then phi (gc c) (fset D f) else oopp5 (phi (gc c) (fset D f)).
Proof.
  intros Hc Hf. destruct (face_view 2 cells nodes labels epart r D VM PA CS c f Hc Hf) as (If & HF & GF & V).
  destruct (pa_geometry _ _ _ _ _ _ _ PA f _ GF) as (_ & EM & _). unfold Spec_sw.sw_flux, flux.
  assert (MM := outward_measures cells nodes labels (gc c) (fset D f) VM HF). cbv zeta in MM.
  change (fv_normal X) with (dm_normal D).
  destruct V as [(d & Hd & Ndc & EN & Ba & Bb & [(ER & En) | (ER & En)]) | [(EN & ER & OC & Bn & En) | (EN & ER & Hh & Ba & En)]].
  - assert (C0 : cell0 X f = c) by (unfold cell0; cbn [dom_fv fv_cellid]; rewrite ER; reflexivity). rewrite C0, Z.eqb_refl.
    assert (C1 : cell1 X f = d) by (unfold cell1; cbn [dom_fv fv_cellid]; rewrite ER; reflexivity).
    unfold Spec_sw.face_left, Spec_sw.face_right. replace (fv_label X f) with 0 by (symmetry; exact EN). cbn [Z.eqb]. rewrite C0, C1, (cell_at c f Hc If), (cell_at d f Hd If), Ba, EM, En. unfold vlen. reflexivity.
  - assert (C0 : cell0 X f = d) by (unfold cell0; cbn [dom_fv fv_cellid]; rewrite ER; reflexivity).
    assert (C1 : cell1 X f = c) by (unfold cell1; cbn [dom_fv fv_cellid]; rewrite ER; reflexivity).
    replace (cell0 X f =? c) with false by (symmetry; apply Z.eqb_neq; rewrite C0; exact Ndc).
    unfold Spec_sw.face_left, Spec_sw.face_right. replace (fv_label X f) with 0 by (symmetry; exact EN). cbn [Z.eqb]. rewrite C0, C1, (cell_at c f Hc If), (cell_at d f Hd If), Ba, EM, En.
    set (n := outward cells nodes (gc c) (fset D f)) in *. replace (vlen (vscal (-1) n)) with (sqrt (vdot n n)) by (unfold vlen; f_equal; unfold vdot, vscal; cbn [px py pz]; ring).
    apply (Properties_sw.C55_antisymmetric g981 _ n); [exact g981_pos | exact MM | unfold vscal; cbn [px]; ring | unfold vscal; cbn [py]; ring].
  - assert (C0 : cell0 X f = c) by (unfold cell0; cbn [dom_fv fv_cellid]; rewrite ER; reflexivity). rewrite C0, Z.eqb_refl.
    unfold Spec_sw.face_left, Spec_sw.face_right. replace (fv_label X f =? 0) with false by (symmetry; apply Z.eqb_neq; change (fv_label X f) with (nthZ 0 (dm_name D) f); lia).
    replace (fv_label X f =? 10) with false by (symmetry; apply Z.eqb_neq; change (fv_label X f) with (nthZ 0 (dm_name D) f); lia).
    rewrite C0, (cell_at c f Hc If), Bn, EM, En. unfold vlen. rewrite (HG f (gc c) OC If) by (unfold left_of; rewrite ER; reflexivity). reflexivity.
  - assert (C0 : cell0 X f = c) by (unfold cell0; cbn [dom_fv fv_cellid]; rewrite ER; reflexivity). rewrite C0, Z.eqb_refl.
    unfold Spec_sw.face_left, Spec_sw.face_right. replace (fv_label X f) with 10 by (symmetry; exact EN). cbn [Z.eqb Pos.eqb].
    rewrite C0, (cell_at c f Hc If), Ba, EM, En. unfold vlen. cbn [dom_fv fv_halofid fv_centerh]. destruct (HH _ Hh) as (-> & -> & -> & ->).
    rewrite (side_at (ghalo D (nthZ 0 (dm_halofid D) f)) f); [reflexivity | | exact If |].
    + apply (beside_spec 2 cells nodes WF PR (gc c) (fset D f) _ HF) in Ba as ((IC & _) & _). exact IC.
    + exact (halo_centre 2 cells nodes labels epart r D PA _ Hh).
Qed.
(** the faces of a cell are those that touch it *)
Lemma touching_row c f : iscell_of D c -> In f (Spec_sw.sw_faces (dom_lists D)) -> touches_face X c f <-> In f (row c).
Proof.
  intros Hc Hf. destruct (cs_triangles _ _ CS eq_refl) as (_ & _ & _ & _ & TT). destruct (pa_sizes _ _ _ _ _ _ _ PA) as (_ & S2 & _). unfold iscell_of in Hc.
  pose proof (Spec_sw.tt_faces _ _ _ _ (TT c ltac:(cbn [dom_fv fv_centerc]; lia))) as (_ & P). cbn [dom_sw Model_sw.cl_faceid] in P. unfold touches_face.
  split.
  - intros T. apply (Permutation_in _ (Permutation_sym P)). apply filter_In. split; [exact Hf|]. apply Bool.orb_true_iff. destruct T as [T|(T1 & T2)]; [left; apply Z.eqb_eq, T | right; rewrite T1, T2, !Z.eqb_refl; reflexivity].
  - intros I. apply (Permutation_in _ P) in I. apply filter_In in I as (_ & I). apply Bool.orb_true_iff in I as [I|I]; [left; apply Z.eqb_eq, I|]. apply andb_prop in I as (I1 & I2). right. split; apply Z.eqb_eq; assumption.
Qed.
Lemma row_listed c f : iscell_of D c -> In f (row c) -> In f (Spec_sw.sw_faces (dom_lists D)).
Proof.
  intros Hc I. destruct (cs_triangles _ _ CS eq_refl) as (_ & _ & _ & _ & TT). destruct (pa_sizes _ _ _ _ _ _ _ PA) as (_ & S2 & _). unfold iscell_of in Hc.
  pose proof (Spec_sw.tt_faces _ _ _ _ (TT c ltac:(cbn [dom_fv fv_centerc]; lia))) as (_ & P). cbn [dom_sw Model_sw.cl_faceid] in P. apply (Permutation_in _ P) in I. apply filter_In in I as (I & _). exact I.
Qed.
(** the residual *)
Lemma residual_rank : exists rez, convective_SW order X (dm_mesure D) (dom_lists D) A (zlen (dm_center D)) = Ok rez /\ zlen rez = zlen (dm_center D) /\
  forall c, iscell_of D c ->
    (forall Phi, (forall F, In F (facets (cell cells (gc c))) -> phi (gc c) F = Some (Phi (gc c) F)) ->
       nthZ None rez c = Some {| q_h := gain cells Phi q_h (gc c); q_hu := gain cells Phi q_hu (gc c); q_hv := gain cells Phi q_hv (gc c); q_hc := gain cells Phi q_hc (gc c); q_Z := gain cells Phi q_Z (gc c) |}) /\
    (nthZ None rez c <> None -> forall F, In F (facets (cell cells (gc c))) -> phi (gc c) F <> None).
Proof.
  destruct (cs_fv _ _ CS) as (WFV & WL). destruct (residual_ok order X (dm_mesure D) (dom_lists D) A WFV WL WA) as (rez & ER & LR & HR). cbn [dom_fv fv_centerc] in ER, LR.
  exists rez. split; [exact ER|]. split; [exact LR|]. intros c Hc. destruct (pa_sizes _ _ _ _ _ _ _ PA) as (_ & S2 & _). pose proof Hc as Hc'. unfold iscell_of in Hc'.
  destruct (HR c ltac:(cbn [dom_fv fv_centerc]; lia)) as (R1 & R2). split.
  - intros Phi HP. set (F := fun f => if cell0 X f =? c then Phi (gc c) (fset D f) else q5_opp (Phi (gc c) (fset D f))).
    rewrite (R1 F).
    2:{ intros f If T. apply (touching_row c f Hc If) in T. rewrite (face_flux c f Hc T), HP. 2:{ apply (in_row 2 cells nodes labels epart r D VM PA CS c _ Hc). exists f. split; [exact T | reflexivity]. }
        unfold F. destruct (cell0 X f =? c); reflexivity. }
    f_equal. pose proof (cs_triangles _ _ CS eq_refl) as WC.
    assert (K : forall k : q5 -> R, (forall q, k (q5_opp q) = (- k q)%R) -> rsum (map (leaves X (fun f => k (F f)) c) (Spec_sw.sw_faces (dom_lists D))) = rsum (map (fun G => k (Phi (gc c) G)) (facets (cell cells (gc c))))).
    { intros k HK. rewrite (leaves_row X (dom_lists D) (dom_sw D) WC (fun f => k (F f)) c) by (cbn [dom_fv fv_centerc]; lia). cbn [dom_sw Model_sw.cl_faceid].
      rewrite <- (rsum_perm _ _ (Permutation_map _ (fset_row 2 cells nodes labels epart r D VM PA CS c Hc))). rewrite map_map. apply rsum_map_ext. intros f _. unfold F. destruct (cell0 X f =? c); [reflexivity|]. rewrite HK. ring. }
    unfold Spec_sw.leaves5. cbv zeta. rewrite (K q_h), (K q_hu), (K q_hv), (K q_hc), (K q_Z) by reflexivity. reflexivity.
  - intros NN F HF E. apply NN. apply R2. apply (in_row 2 cells nodes labels epart r D VM PA CS c _ Hc) in HF as (f & Hf & EF). exists f.
    pose proof (row_listed c f Hc Hf) as LF. split; [exact LF|]. split; [apply (touching_row c f Hc LF), Hf|]. rewrite (face_flux c f Hc Hf), <- EF, E. destruct (cell0 X f =? c); reflexivity.
Qed.
(** the state beyond a face *)
Lemma beyond_rank c j : iscell_of D c -> 0 <= j < 3 -> let F := fset D (nthZ 0 (row c) j) in
  beyond_face X (dom_sw D) A c j = Ok (q_h (outside cells nodes labels B W (gc c) F), q_Z (outside cells nodes labels B W (gc c) F)).
Proof.
  intros Hc Hj F. destruct (cs_fv _ _ CS) as (WFV & WL). pose proof (cs_triangles _ _ CS eq_refl) as WC. destruct (pa_sizes _ _ _ _ _ _ _ PA) as (_ & S2 & _). pose proof Hc as Hc'. unfold iscell_of in Hc'.
  rewrite (beyond_ok X (dm_mesure D) (dom_lists D) (dom_sw D) A WFV WL WA WC c j ltac:(cbn [dom_fv fv_centerc]; lia) Hj). cbn [dom_sw Model_sw.cl_faceid].
  set (f := nthZ 0 (row c) j) in *. destruct (rows_ok 2 cells nodes labels epart r D PA CS c Hc) as (L3 & _). assert (Hf : In f (row c)) by (apply nthZ_In; lia).
  assert (EO : q_h (other X A c f) = q_h (outside cells nodes labels B W (gc c) F) /\ q_Z (other X A c f) = q_Z (outside cells nodes labels B W (gc c) F)); [|destruct EO as (-> & ->); reflexivity].
  assert (S1 : forall w psi gh gk x y, Spec_sw.sw_side 1 w psi gh gk x y = w) by (intros; apply side1).
  destruct (face_view 2 cells nodes labels epart r D VM PA CS c f Hc Hf) as (If & HF & GF & V). unfold other, outside. fold F in HF, GF, V.
  destruct V as [(d & Hd & Ndc & EN & Ba & Bb & [(ER & En) | (ER & En)]) | [(EN & ER & OC & Bn & En) | (EN & ER & Hh & Ba & En)]].
  - assert (C0 : cell0 X f = c) by (unfold cell0; cbn [dom_fv fv_cellid]; rewrite ER; reflexivity). rewrite C0, Z.eqb_refl.
    assert (C1 : cell1 X f = d) by (unfold cell1; cbn [dom_fv fv_cellid]; rewrite ER; reflexivity).
    unfold Spec_sw.face_right. replace (fv_label X f) with 0 by (symmetry; exact EN). cbn [Z.eqb]. rewrite C1, Ba. unfold Spec_sw.cell_side. rewrite S1. destruct (HC d Hd) as (-> & _). auto.
  - assert (C0 : cell0 X f = d) by (unfold cell0; cbn [dom_fv fv_cellid]; rewrite ER; reflexivity).
    replace (cell0 X f =? c) with false by (symmetry; apply Z.eqb_neq; rewrite C0; exact Ndc).
    unfold Spec_sw.face_left. rewrite C0, Ba. unfold Spec_sw.cell_side. rewrite S1. destruct (HC d Hd) as (-> & _). auto.
  - assert (C0 : cell0 X f = c) by (unfold cell0; cbn [dom_fv fv_cellid]; rewrite ER; reflexivity). rewrite C0, Z.eqb_refl.
    unfold Spec_sw.face_right. replace (fv_label X f =? 0) with false by (symmetry; apply Z.eqb_neq; change (fv_label X f) with (nthZ 0 (dm_name D) f); lia).
    replace (fv_label X f =? 10) with false by (symmetry; apply Z.eqb_neq; change (fv_label X f) with (nthZ 0 (dm_name D) f); lia).
    rewrite (HG f (gc c) OC If) by (unfold left_of; rewrite ER; reflexivity). fold F. unfold outside. rewrite Bn. auto.
  - assert (C0 : cell0 X f = c) by (unfold cell0; cbn [dom_fv fv_cellid]; rewrite ER; reflexivity). rewrite C0, Z.eqb_refl.
    unfold Spec_sw.face_right. replace (fv_label X f) with 10 by (symmetry; exact EN). cbn [Z.eqb Pos.eqb]. rewrite S1, Ba. cbn [dom_fv fv_halofid]. destruct (HH _ Hh) as (-> & _). auto.
Qed.
End Rank17.
