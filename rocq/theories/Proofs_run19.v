(** * Proofs_run19: one step of the shallow-water program on a rank. *)
From Coq Require Import Reals Lra Psatz Permutation Sorted.
From Verif Require Import Py PyLemmas Model_part Spec_part Model_label Model_conn Spec_conn Proofs_conn1 Proofs_conn2 Model_geom Spec_geom Proofs_geom1 Proofs_geom2 Proofs_geom3
  Model_halo Spec_halo Model_interp Spec_interp Spec_lsq Proofs_lsq Model_fvm Spec_fvm Proofs_fvm1 Proofs_fvm2 Properties_fvm Model_bc Spec_bc Spec_bc3 Proofs_label Proofs_bc Proofs_bc2 Model_domain Spec_domain
  Model_comm Model_parallel Spec_parallel Proofs_parallel1 Model_run Spec_run Proofs_run1 Proofs_run2 Proofs_run3 Proofs_run4 Proofs_run5 Spec_run2 Model_run2 Proofs_run7 Proofs_run8 Proofs_run9 Proofs_run10 Proofs_run11 Proofs_run12.
From Verif Require Import Model_sw Proofs_sw5 Proofs_sw6 Proofs_sw7 Spec_run4 Proofs_run17 Proofs_run18.
From Verif Require Spec_sw Properties_sw Proofs_sw8.
Open Scope Z_scope.

Lemma known_inv {V} (l : list (option V)) : forall w, known l = Ok w -> l = map Some w.
Proof.
  unfold known. induction l as [|o l IH]; intros w E; cbn [mapM] in E; [injection E as <-; reflexivity|].
  destruct o as [x|]; cbn [bind] in E; [|discriminate E]. apply bind_ok in E as (w1 & E1 & E2). injection E2 as <-. cbn [map]. f_equal. apply IH, E1.
Qed.

Section Rank19.
Context (cells : list (list Z)) (nodes : list pt) (labels epart : list Z) (r : Z) (D : domain).
Hypothesis VM : valid_mesh 2 cells nodes labels.
Hypothesis PA : part_of 2 cells nodes labels epart r D.
Hypothesis CS : consistent 2 D.
Notation WF := (vm_mesh _ _ _ _ VM).
Notation NF := (vm_nonflat _ _ _ _ VM).
Notation gc := (gcell D).
Notation X := (dom_fv D).
Notation row c := (nthZ [] (dm_faceid D) c).

(** the nodes and faces of a cell of the rank *)
Lemma arranged_rank c : iscell_of D c -> exists a b d, nthZ [] (dm_cellnodes D) c = [a; b; d] /\ isnode_of D b /\
  arranged cells nodes (gc c) (gnode D a) (gnode D b) (gnode D d) (fset D (nthZ 0 (row c) 0)) (fset D (nthZ 0 (row c) 1)) (fset D (nthZ 0 (row c) 2)).
Proof.
  intros Hc. destruct (pa_sizes _ _ _ _ _ _ _ PA) as (_ & S2 & _). pose proof Hc as Hc'. unfold iscell_of in Hc'.
  destruct (cs_order _ _ CS eq_refl c ltac:(lia)) as (a & b & d & ER & T & P0 & P1 & P2). exists a, b, d. split; [exact ER|].
  pose proof (proj1 (pa_numbers _ _ _ _ _ _ _ PA) c Hc) as FN. rewrite ER in FN. inversion FN as [|? ? Ha FN1]; subst. inversion FN1 as [|? ? Hb FN2]; subst. inversion FN2 as [|? ? Hd _]; subst.
  split; [exact Hb|]. destruct (pa_cell _ _ _ _ _ _ _ PA c Hc) as (PC & _). rewrite ER in PC. cbn [map] in PC.
  destruct (rows_ok 2 cells nodes labels epart r D PA CS c Hc) as (L3 & _).
  assert (FP : forall f l, Permutation (nthZ [] (dm_facenodes D) f) l -> Permutation (fset D f) (map (gnode D) l)). { intros f l Q. unfold fset. rewrite np_sort_perm. apply Permutation_map, Q. }
  constructor.
  - apply Permutation_sym, PC.
  - unfold at_node in T. fold (at_node nodes (gnode D a)).
    pose proof (proj1 (pa_node _ _ _ _ _ _ _ PA a Ha)) as Ea. pose proof (proj1 (pa_node _ _ _ _ _ _ _ PA b Hb)) as Eb. pose proof (proj1 (pa_node _ _ _ _ _ _ _ PA d Hd)) as Ed.
    rewrite <- Ea, <- Eb, <- Ed. exact T.
  - rewrite <- (fset_row 2 cells nodes labels epart r D VM PA CS c Hc). rewrite (row3 0 (row c)) at 1 by lia. reflexivity.
  - apply (FP _ [a; b] P0).
  - apply (FP _ [b; d] P1).
  - apply (FP _ [d; a] P2).
Qed.

Context (B : flow) (order : Z) (W : Z -> q5) (Sl Tl : Z -> pt) (Ps : Z -> R) (A : swdata).
Hypothesis WA : Spec_sw.wf_swdata X (dm_mesure D) A.
Hypothesis HC : forall c, iscell_of D c -> nthZ q5_zero (sw_c A) c = W (gc c) /\ nthZ vzero (sw_gradh A) c = Sl (gc c) /\ nthZ vzero (sw_gradc A) c = Tl (gc c) /\ nthZ 0%R (sw_psi A) c = Ps (gc c).
Hypothesis HH : forall h, ishalo_of D h -> nthZ q5_zero (sw_halo A) h = W (ghalo D h) /\ nthZ vzero (sw_gradhh A) h = Sl (ghalo D h) /\ nthZ vzero (sw_gradch A) h = Tl (ghalo D h) /\ nthZ 0%R (sw_psih A) h = Ps (ghalo D h).
Hypothesis HG : forall f c, only_cell 2 cells c (fset D f) -> isface D f -> gc (left_of D f) = c -> nthZ q5_zero (sw_ghost A) f = outside cells nodes labels B W c (fset D f).
Hypothesis HS : forall c, iscell cells c -> gradient 2 (Sl c) /\ gradient 2 (Tl c).
Hypothesis H1 : order <> 2 -> forall c, iscell cells c -> Sl c = vzero /\ Tl c = vzero.
Hypothesis WET : forall c, iscell cells c -> (0 < q_h (W c))%R.
Notation phi c F := (flux cells nodes labels B order W Sl Tl Ps c F).
Notation out c F := (outside cells nodes labels B W c F).

Lemma outside_wet c F : iscell cells c -> In F (facets (cell cells c)) -> (0 < q_h (out c F))%R.
Proof.
  intros Hc HF. unfold outside. destruct (beside cells c F) as [d|] eqn:EB; [|exact (WET c Hc)].
  apply (facets_iff 2 cells nodes WF c F Hc) in HF. apply (beside_spec 2 cells nodes WF (vm_proper _ _ _ _ VM) c F d HF) in EB as ((ID & _) & _). exact (WET d ID).
Qed.
Lemma depths_exist_mesh c : iscell cells c -> exists H, part_depths cells nodes labels B W c H.
Proof.
  intros Hc. destruct (arranged_exists cells nodes labels VM c Hc) as (a & b & d & F0 & F1 & F2 & AR). pose proof (ar_facets _ _ _ _ _ _ _ _ _ AR) as PF.
  apply (depths_exist cells nodes labels VM B W c a b d F0 F1 F2 Hc AR); apply outside_wet; try exact Hc; apply (Permutation_in _ (Permutation_sym PF)); cbn; auto.
Qed.
(** the normal in the tables of the cell *)
Lemma nf_ok c j : iscell_of D c -> 0 <= j < 3 -> let s := nthZ vzero (nthZ [] (dm_nf D) c) j in let n := outward cells nodes (gc c) (fset D (nthZ 0 (row c) j)) in px s = px n /\ py s = py n.
Proof.
  intros Hc Hj s n. destruct (pa_sizes _ _ _ _ _ _ _ PA) as (_ & S2 & _). pose proof Hc as Hc'. unfold iscell_of in Hc'. destruct (cs_triangles _ _ CS eq_refl) as (_ & _ & _ & _ & TT).
  pose proof (Spec_sw.tt_nf _ _ _ _ (TT c ltac:(cbn [dom_fv fv_centerc]; lia)) j Hj) as (N1 & N2). cbn [dom_sw Model_sw.cl_faceid Model_sw.cl_nf] in N1, N2. fold s in N1, N2. change (fv_normal X) with (dm_normal D) in N1, N2.
  set (f := nthZ 0 (row c) j) in *. destruct (rows_ok 2 cells nodes labels epart r D PA CS c Hc) as (L3 & _). assert (Hf : In f (row c)) by (apply nthZ_In; lia).
  destruct (face_view 2 cells nodes labels epart r D VM PA CS c f Hc Hf) as (If & HF & GF & V). fold n in V.
  assert (C0 : forall x y, nthZ [] (dm_cellid D) f = [x; y] -> cell0 X f = x) by (intros x y E; unfold cell0; cbn [dom_fv fv_cellid]; rewrite E; reflexivity).
  destruct V as [(d & Hd & Ndc & EN & Ba & Bb & [(ER & En) | (ER & En)]) | [(EN & ER & OC & Bn & En) | (EN & ER & Hh & Ba & En)]]; rewrite En in N1, N2; rewrite (C0 _ _ ER) in N1, N2.
  - exact (N1 eq_refl).
  - destruct (N2 Ndc) as (-> & ->). unfold vscal. cbn [px py]. split; ring.
  - exact (N1 eq_refl).
  - exact (N1 eq_refl).
Qed.
(** the source *)
Lemma source_rank : exists src, term_source_SW X (dom_sw D) A = Ok src /\ zlen src = zlen (dm_center D) /\
  forall c H, iscell_of D c -> part_depths cells nodes labels B W (gc c) H ->
    nthZ None src c = Some {| q_h := 0; q_hu := bottom_force cells nodes labels B W (gc c) H px; q_hv := bottom_force cells nodes labels B W (gc c) H py; q_hc := 0; q_Z := 0 |}%R.
Proof.
  destruct (Spec_sw.wsw_cells _ _ _ WA) as (LC & _). cbn [dom_fv fv_centerc] in LC. destruct (pa_sizes _ _ _ _ _ _ _ PA) as (S1 & S2 & S3 & S4 & S5 & S6 & S7 & _).
  unfold term_source_SW. rewrite LC.
  destruct (mapM_range_ex (@None q5) (fun i => do w <- get (sw_c A) i; do G <- get (fv_centerc X) i;
    let face j := do hz <- beyond_face X (dom_sw D) A i j; do s <- get2 (cl_nf (dom_sw D)) i j; ret (fst hz, snd hz, s) in
    do f0 <- face 0; do f1 <- face 1; do f2 <- face 2;
    do nod <- get2 (cl_nodeid (dom_sw D)) i 1; do b <- get (cl_vertex (dom_sw D)) nod;
    ret (match source_cell w G b f0 f1 f2 with
         | Some (sx, sy) => Some {| q_h := 0; q_hu := sx; q_hv := sy; q_hc := 0; q_Z := 0 |} | None => None end))
    (fun c o => forall H, part_depths cells nodes labels B W (gc c) H ->
       o = Some {| q_h := 0; q_hu := bottom_force cells nodes labels B W (gc c) H px; q_hv := bottom_force cells nodes labels B W (gc c) H py; q_hc := 0; q_Z := 0 |}%R) (zlen (dm_center D)) (zlen_nonneg _)) as (src & ES & LS & HSr).
  2:{ exists src. split; [exact ES|]. split; [exact LS|]. intros c H Hc PD. apply HSr; [unfold iscell_of in Hc; lia | exact PD]. }
  intros c Hc. assert (Ic : iscell_of D c) by (unfold iscell_of; lia). destruct (arranged_rank c Ic) as (a & b & d & ER & Hb & AR).
  pose proof (proj1 (gcell_owned 2 cells nodes labels epart r D PA c Ic)) as Gc.
  destruct (cs_triangles _ _ CS eq_refl) as (_ & _ & LNF & _ & TT). pose proof (Spec_sw.tt_rows _ _ _ _ (TT c ltac:(cbn [dom_fv fv_centerc]; lia))) as (RN & _). cbn [dom_sw Model_sw.cl_nf dom_fv fv_centerc] in RN, LNF.
  rewrite (get_nthZ q5_zero) by lia. cbn [bind]. rewrite (get_nthZ vzero) by (cbn [dom_fv fv_centerc]; lia). cbn [bind].
  assert (FJ : forall j, 0 <= j < 3 -> (do hz <- beyond_face X (dom_sw D) A c j; do s <- get2 (cl_nf (dom_sw D)) c j; ret (fst hz, snd hz, s)) =
     Ok (q_h (out (gc c) (fset D (nthZ 0 (row c) j))), q_Z (out (gc c) (fset D (nthZ 0 (row c) j))), nthZ vzero (nthZ [] (dm_nf D) c) j)).
  { intros j Hj. rewrite (beyond_rank cells nodes labels epart r D VM PA CS B W Sl Tl Ps A WA HC HH HG c j Ic Hj). cbn [bind fst snd].
    rewrite (get2_nthZ vzero) by (cbn [dom_sw cl_nf]; lia). reflexivity. }
  cbv zeta. rewrite (FJ 0), (FJ 1), (FJ 2) by lia. cbn [bind].
  assert (LB : zlen (nthZ [] (cl_nodeid (dom_sw D)) c) = 3) by (cbn [dom_sw cl_nodeid]; rewrite ER; reflexivity).
  rewrite (get2_nthZ 0) by (try rewrite LB; cbn [dom_sw cl_nodeid] in *; lia). cbn [bind]. cbn [dom_sw cl_nodeid cl_vertex]. rewrite ER. change (nthZ 0 [a; b; d] 1) with b.
  rewrite (get_nthZ vzero) by (unfold isnode_of in Hb; lia). cbn [bind]. eexists. split; [reflexivity|]. intros H PD.
  pose proof (ar_facets _ _ _ _ _ _ _ _ _ AR) as PF. destruct (normals_ok cells nodes labels VM (gc c) _ _ _ _ _ _ Gc AR) as (O0 & O1 & O2).
  pose proof (nf_ok c 0 Ic ltac:(lia)) as M0. pose proof (nf_ok c 1 Ic ltac:(lia)) as M1. pose proof (nf_ok c 2 Ic ltac:(lia)) as M2. cbv zeta in M0, M1, M2. rewrite O0 in M0. rewrite O1 in M1. rewrite O2 in M2.
  rewrite (source_force cells nodes labels VM B W (gc c) _ _ _ _ _ _ Gc AR) with (H := H); try assumption; try reflexivity.
  - apply outside_wet; [exact Gc|]. apply (Permutation_in _ (Permutation_sym PF)). cbn. auto.
  - apply outside_wet; [exact Gc|]. apply (Permutation_in _ (Permutation_sym PF)). cbn. auto.
  - apply outside_wet; [exact Gc|]. apply (Permutation_in _ (Permutation_sym PF)). cbn. auto.
  - exact (proj1 (HC c Ic)).
  - cbn [dom_fv fv_centerc]. rewrite (centre_of 2 cells nodes labels epart r D PA c Ic). reflexivity.
  - cbn [dom_fv fv_centerc]. rewrite (centre_of 2 cells nodes labels epart r D PA c Ic). reflexivity.
  - exact (proj1 (pa_node _ _ _ _ _ _ _ PA b Hb)).
Qed.

(** the new values *)
Definition step_rank (co : swcoef) (dt : R) (g : list pt) (z : list (option q5)) : res (list q5) :=
  do dis <- dissipative (dm_cellid D) (dm_normal D) g (dm_name D) (P3 (co_Dx co) (co_Dy co) 0) (zlen (dm_center D));
  do src <- term_source_SW (dom_fv D) (dom_sw D) A;
  do new <- update_SW (sw_c A) z src dis (term_coriolis_SW (sw_c A) (co_fc co)) (0, 0)%R dt (dm_volume D);
  known new.
Lemma step_rank_ok co dt g Gf z : zlen g = zlen (dm_cellid D) -> (forall c f, iscell_of D c -> In f (row c) -> nthZ vzero g f = Gf (gc c) (fset D f)) ->
  zlen z = zlen (dm_center D) ->
  (forall c, iscell_of D c ->
    (forall Phi, (forall F, In F (facets (cell cells (gc c))) -> phi (gc c) F = Some (Phi (gc c) F)) ->
       nthZ None z c = Some {| q_h := gain cells Phi q_h (gc c); q_hu := gain cells Phi q_hu (gc c); q_hv := gain cells Phi q_hv (gc c); q_hc := gain cells Phi q_hc (gc c); q_Z := gain cells Phi q_Z (gc c) |}) /\
    (nthZ None z c <> None -> forall F, In F (facets (cell cells (gc c))) -> phi (gc c) F <> None)) ->
  let E := {| fe_Dx := co_Dx co; fe_Dy := co_Dy co; fe_Mann := co_Mann co; fe_fc := co_fc co |} in
  (forall Phi H, (forall c F, iscell_of D c -> In F (facets (cell cells (gc c))) -> phi (gc c) F = Some (Phi (gc c) F)) -> (forall c, iscell_of D c -> part_depths cells nodes labels B W (gc c) (H (gc c))) ->
     exists new, step_rank co dt g z = Ok new /\ zlen new = zlen (dm_center D) /\ forall c, iscell_of D c -> nthZ q5_zero new c = stepped cells nodes labels B E dt W Phi Gf H (gc c)) /\
  (forall new, step_rank co dt g z = Ok new -> forall c F, iscell_of D c -> In F (facets (cell cells (gc c))) -> phi (gc c) F <> None).
Proof.
  intros LG HGf LZ HZ E.
  destruct source_rank as (src & ES & LS & HSr). destruct (cs_fv _ _ CS) as (WFV & WL). destruct (pa_sizes _ _ _ _ _ _ _ PA) as (_ & S2 & S3 & _).
  destruct (Spec_sw.wsw_cells _ _ _ WA) as (LC & _). cbn [dom_fv fv_centerc] in LC.
  set (K := P3 (co_Dx co) (co_Dy co) 0).
  destruct (C30_diffusion_conservative 2 X g K WFV LG) as (dis & ED & LD & VD & _). cbn [dom_fv fv_cellid fv_normal fv_name fv_centerc] in ED, LD, VD. fold X in VD.
  assert (DIS : forall c, iscell_of D c -> nthZ 0%R dis c = rsum (map (fun F => diffused cells nodes K (Gf (gc c) F) (gc c) F) (facets (cell cells (gc c))))).
  { intros c Hc. rewrite VD by (unfold iscell_of in Hc; lia). rewrite <- (rsum_perm _ _ (Permutation_map _ (cs_each_face_once _ _ CS))). apply (sum_faces 2 cells nodes labels epart r D VM PA CS); [exact Hc|]. intros f Hf. rewrite (diffused_face 2 cells nodes labels epart r D VM PA CS K g c f Hc Hf). rewrite (HGf c f Hc Hf). reflexivity. }
  unfold step_rank. fold K. rewrite ED. cbn [bind]. rewrite ES. cbn [bind].
  destruct (update_SW_ok (sw_c A) z src dis (term_coriolis_SW (sw_c A) (co_fc co)) (0, 0)%R dt (dm_volume D)) as (new & EN & LN & VN); [lia | lia | lia | unfold term_coriolis_SW; apply zlen_map | lia |].
  rewrite EN. cbn [bind]. split.
  - intros Phi H HP HD. destruct (known_ok q5_zero new (fun c x => nthZ None new c = Some x)) as (w' & EK & LK & HKn).
    { intros c Hc. assert (Ic : iscell_of D c) by (unfold iscell_of; lia). rewrite (VN c) by lia. rewrite (proj1 (HZ c Ic) Phi (fun F HF => HP c F Ic HF)), (HSr c (H (gc c)) Ic (HD c Ic)).
      rewrite update_cell_ok by (pose proof (proj2 (proj2 (proj2 (pa_cell _ _ _ _ _ _ _ PA c Ic)))); lra). eexists. split; reflexivity. }
    exists w'. split; [exact EK|]. split; [lia|]. intros c Ic. assert (Hc : 0 <= c < zlen new) by (unfold iscell_of in Ic; lia). specialize (HKn c Hc). cbv beta in HKn. rewrite (VN c) in HKn by lia.
    rewrite (proj1 (HZ c Ic) Phi (fun F HF => HP c F Ic HF)), (HSr c (H (gc c)) Ic (HD c Ic)) in HKn.
    assert (VP : (0 < nthZ 0%R (dm_volume D) c)%R) by exact (proj2 (proj2 (proj2 (pa_cell _ _ _ _ _ _ _ PA c Ic)))).
    rewrite update_cell_ok in HKn by lra. injection HKn as <-. rewrite (proj1 (HC c Ic)), (DIS c Ic).
    unfold term_coriolis_SW. rewrite (nthZ_map _ q5_zero) by lia. rewrite (proj1 (HC c Ic)). cbn [fst snd q_h q_hu q_hv q_hc q_Z].
    unfold stepped. replace (nthZ 0%R (dm_volume D) c) with (measure_of cells nodes (gc c)) in * by (symmetry; apply (pa_cell _ _ _ _ _ _ _ PA c Ic)).
    assert (GZ : gain cells Phi q_Z (gc c) = 0%R).
    { unfold gain. rewrite rsum_map_zero; [ring|]. intros F HF. exact (proj2 (proj2 (Proofs_sw8.some_flux _ _ _ _ _ _ (HP c F Ic HF)))). }
    rewrite GZ. subst E. cbn [fe_Dx fe_Dy fe_fc]. fold K. set (m := measure_of cells nodes (gc c)) in *. f_equal; field; lra.
  - intros w' EK c F Ic HF. apply (proj2 (HZ c Ic)); [|exact HF]. intros N. apply known_inv in EK. assert (Hc : 0 <= c < zlen new) by (unfold iscell_of in Ic; lia).
    pose proof (VN c ltac:(lia)) as V. rewrite N in V. rewrite EK, (nthZ_map _ q5_zero) in V by (rewrite EK, zlen_map in Hc; exact Hc). discriminate V.
Qed.
End Rank19.
