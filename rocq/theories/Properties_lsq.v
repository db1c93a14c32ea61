(** * Properties_lsq: C24 and C25 on arbitrary data.
    Vocabulary: [Spec_interp] ([stencil], [cell_stencil], [value_at], [spans] ...) and [Spec_lsq] ([best_fit], [best_slope]). *)
From Verif Require Import Py PyLemmas Model_part Model_conn Spec_conn Model_geom Spec_geom Model_interp Spec_interp Spec_lsq
  Proofs_interp1 Proofs_interp2 Proofs_interp3 Proofs_fvm1 Proofs_fvm2 Proofs_lsq Properties_interp Examples_interp.
From Coq Require Import Permutation Lra Psatz ZifyBool.
Open Scope Z_scope.

(** C24 on arbitrary data: the value at a node is the value there of the affine function that fits the values around the
    node best in the sense of least squares (a unique function, since the points do not lie on a line / in a plane). *)
Theorem C24_least_squares : forall dim N nf nhg W, wf_nodedata dim N nf nhg ->
  wf_values W (zlen (nd_centerc N)) nf (zlen (nd_centerh N)) nhg ->
  exists nvs wn, variables dim N = Ok nvs /\ centertovertex dim N nvs W = Ok wn /\
  forall i, 0 <= i < zlen (nd_vertex N) -> spans dim (map fst (stencil dim N i)) ->
    exists c g, best_fit dim (map (fun ps => (fst ps, value_at W (snd ps))) (stencil dim N i)) c g /\
                nthZ None wn i = Some (affine c g (nthZ vzero (nd_vertex N) i)).
Proof.
  intros dim N nf nhg W WF WW. eexists. eexists. split; [apply (variables_ok dim N nf nhg WF)|]. split; [apply (centertovertex_ok dim N nf nhg WF W WW _ (variables_ok dim N nf nhg WF))|].
  intros i Hi HS. rewrite (nthZ_map _ 0) by (rewrite zlen_range; lia). rewrite nthZ_range by lia. apply nval_fit; [apply (wn_dim _ _ _ _ WF) | exact HS].
Qed.
Print Assumptions C24_least_squares.

(** C25 on arbitrary data: the gradient of a cell is that of the affine function which takes the value of the cell at its
    centre and fits the values around the cell best in the sense of least squares (3D: without periodic neighbours). *)
Theorem C25_least_squares : forall dim C nbnodes nf nhg W, wf_celldata dim C nbnodes nf nhg ->
  wf_values W (zlen (cd_centerc C)) nf (zlen (cd_centerh C)) nhg ->
  (dim = 2 \/ (forall i, 0 <= i < zlen (cd_centerc C) -> row_count (nthZ [] (cd_periodicnid C) i) = 0)) ->
  exists gs, cell_gradient dim C W = Ok gs /\ zlen gs = zlen (cd_centerc C) /\
  forall i, 0 <= i < zlen (cd_centerc C) -> spans_from dim (nthZ vzero (cd_centerc C) i) (map fst (cell_stencil dim C i)) ->
    exists g, best_slope dim (nthZ vzero (cd_centerc C) i) (nthZ 0%R (w_c W) i)
                (map (fun ps => (fst ps, value_at W (snd ps))) (cell_stencil dim C i)) g /\ nthZ None gs i = Some g.
Proof.
  intros dim C nbnodes nf nhg W WF WW HP.
  assert (HP' : dim = 3 -> forall i, 0 <= i < zlen (cd_centerc C) -> row_count (nthZ [] (cd_periodicnid C) i) = 0) by (intros E; destruct HP as [H|H]; [lia | exact H]).
  destruct (cell_gradient_total dim C nbnodes nf nhg WF W WW HP') as (gs & E & EL). exists gs. split; [exact E|]. split; [exact EL|].
  intros i Hi HS. destruct (cell_gradient_at dim C nbnodes nf nhg WF W WW gs i E Hi (fun Ed => HP' Ed i Hi)) as (_ & ->).
  destruct (slope_fit dim W _ (nthZ 0%R (w_c W) i) _ (wc_dim _ _ _ _ _ WF) HS) as (g & Eg & HB). exists g. split; [exact HB | exact Eg].
Qed.
Print Assumptions C25_least_squares.

(** ** A saddle: four cells around one node, values 1, 1, -1, -1 at (1,0), (-1,0), (0,1), (0,-1); no affine function takes
    these values; the node value is that of the best fit, the constant 0.  The cell at (1,0) sees the other three. *)
Definition sad_pts : list pt := [P3 1 0 0; P3 (-1) 0 0; P3 0 1 0; P3 0 (-1) 0].
Definition sad_N : nodedata := {| nd_centerc := sad_pts; nd_cellid := [[0; 1; 2; 3; 4]]; nd_haloid := [[0]]; nd_periodic := [[0]];
  nd_vertex := [P3 0 0 0]; nd_old := [0]; nd_name := [0]; nd_ghost := [[gpad]]; nd_haloghost := [[gpad]]; nd_centerh := []; nd_shift := [P3 0 0 0; P3 0 0 0; P3 0 0 0; P3 0 0 0] |}.
Definition sad_C : celldata := {| cd_centerc := sad_pts; cd_cellnid := [[1; 2; 3; 3]; [0; 2; 3; 3]; [0; 1; 3; 3]; [0; 1; 2; 3]]; cd_halonid := [[0]; [0]; [0]; [0]];
  cd_nodes := [[0; 0; 0; 3]; [0; 0; 0; 3]; [0; 0; 0; 3]; [0; 0; 0; 3]]; cd_periodicnid := [[0]; [0]; [0]; [0]]; cd_periodic := [[0]]; cd_old := [0];
  cd_ghost := [[gpad]]; cd_haloghost := [[gpad]]; cd_centerh := []; cd_shift := [P3 0 0 0; P3 0 0 0; P3 0 0 0; P3 0 0 0] |}.
Definition sad_W : values := {| w_c := [1; 1; -1; -1]%R; w_ghost := []; w_halo := []; w_haloghost := [] |}.
Lemma sad_row r : In r [[0; 1; 2; 3; 4]; [1; 2; 3; 3]; [0; 2; 3; 3]; [0; 1; 3; 3]; [0; 1; 2; 3]; [0]] -> row_ok 4 r.
Proof. intros H. cbn [In] in H. destruct H as [<-|[<-|[<-|[<-|[<-|[<-|[]]]]]]]; apply row_okb_ok; reflexivity. Qed.
Lemma sad_gpad : ghost_row_ok 0 [gpad].
Proof. apply ghost_okb_ok. reflexivity. Qed.
Example C24_saddle : wf_nodedata 2 sad_N 0 0 /\ wf_values sad_W 4 0 0 0 /\ spans 2 (map fst (stencil 2 sad_N 0)) /\
  exists nvs, variables 2 sad_N = Ok nvs /\ centertovertex 2 sad_N nvs sad_W = Ok [Some 0%R].
Proof.
  assert (WF : wf_nodedata 2 sad_N 0 0).
  { constructor; [left; reflexivity | vm_compute; auto 10 | | | |]; intros i Hi; change (zlen (nd_vertex sad_N)) with 1 in Hi; assert (Ei : i = 0) by lia; subst i.
    - apply sad_row; cbn; auto 10.
    - apply sad_gpad.
    - intros H. discriminate H.
    - intros H. discriminate H. }
  assert (WW : wf_values sad_W 4 0 0 0) by (repeat split).
  assert (ST : stencil 2 sad_N 0 = [(P3 1 0 0, Scell 0); (P3 (-1) 0 0, Scell 1); (P3 0 1 0, Scell 2); (P3 0 (-1) 0, Scell 3)]) by reflexivity.
  assert (SP : spans 2 (map fst (stencil 2 sad_N 0))).
  { rewrite ST. cbn [map fst spans Z.eqb Pos.eqb]. unfold spans. cbn [Z.eqb Pos.eqb]. exists (P3 1 0 0), (P3 (-1) 0 0), (P3 0 1 0). cbn [In]. repeat split; auto. unfold turn. cbn [px py]. lra. }
  split; [exact WF|]. split; [exact WW|]. split; [exact SP|].
  destruct (C24_least_squares 2 sad_N 0 0 sad_W WF WW) as (nvs & wn & E1 & E2 & H). exists nvs. split; [exact E1|]. rewrite E2.
  destruct (H 0 ltac:(vm_compute; split; congruence) SP) as (c & g & (_ & HB & _) & EV). 
  assert (EL : zlen wn = 1) by (unfold centertovertex in E2; apply mapM_zlen in E2; rewrite E2; reflexivity).
  rewrite ST in HB. specialize (HB 0%R vzero ltac:(intros _; reflexivity)).
  unfold misfit, affine, vdot, vzero, rsum in HB. cbn [map fst snd fold_right value_at px py pz sad_W w_c] in HB.
  change (nthZ 0%R [1%R; 1%R; (-1)%R; (-1)%R] 0) with 1%R in HB. change (nthZ 0%R [1%R; 1%R; (-1)%R; (-1)%R] 1) with 1%R in HB.
  change (nthZ 0%R [1%R; 1%R; (-1)%R; (-1)%R] 2) with (-1)%R in HB. change (nthZ 0%R [1%R; 1%R; (-1)%R; (-1)%R] 3) with (-1)%R in HB.
  assert (Ec : c = 0%R) by nra.
  destruct wn as [|o [|o' t]]; [discriminate EL | | rewrite !zlen_cons in EL; pose proof (zlen_nonneg t); lia].
  cbn in EV. rewrite EV. do 2 f_equal. unfold affine, vdot. cbn [nd_vertex sad_N]. change (nthZ vzero [P3 0 0 0] 0) with (P3 0 0 0). cbn [px py pz]. rewrite Ec. f_equal. ring.
Qed.
Example C25_saddle : wf_celldata 2 sad_C 1 0 0 /\ spans_from 2 (P3 1 0 0) (map fst (cell_stencil 2 sad_C 0)) /\
  exists gs, cell_gradient 2 sad_C sad_W = Ok gs /\ nthZ None gs 0 = Some (P3 (2/3) 0 0)%R.
Proof.
  assert (WF : wf_celldata 2 sad_C 1 0 0).
  { apply celldata_okb_ok; [auto | repeat split | lazy; reflexivity]. }
  assert (ST : cell_stencil 2 sad_C 0 = [(P3 (-1) 0 0, Scell 1); (P3 0 1 0, Scell 2); (P3 0 (-1) 0, Scell 3)]) by reflexivity.
  assert (SP : spans_from 2 (P3 1 0 0) (map fst (cell_stencil 2 sad_C 0))).
  { rewrite ST. cbn [map fst]. unfold spans_from. cbn [Z.eqb Pos.eqb]. exists (P3 (-1) 0 0), (P3 0 1 0). cbn [In]. repeat split; auto. unfold turn. cbn [px py]. lra. }
  split; [exact WF|]. split; [exact SP|].
  destruct (C25_least_squares 2 sad_C 1 0 0 sad_W WF ltac:(repeat split) (or_introl eq_refl)) as (gs & E & _ & H). exists gs. split; [exact E|].
  destruct (H 0 ltac:(vm_compute; split; congruence) SP) as (g & (Hg & HB & _) & ->). f_equal. rewrite ST in HB. specialize (Hg eq_refl).
  specialize (HB (P3 (2/3) 0 0)%R ltac:(intros _; reflexivity)).
  unfold misfit_from, vdot, vsub, rsum in HB. cbn [map fst snd fold_right value_at sad_W w_c] in HB. cbv zeta in HB.
  change (nthZ vzero (cd_centerc sad_C) 0) with (P3 1 0 0) in HB.
  change (nthZ 0%R [1%R; 1%R; (-1)%R; (-1)%R] 0) with 1%R in HB. change (nthZ 0%R [1%R; 1%R; (-1)%R; (-1)%R] 1) with 1%R in HB.
  change (nthZ 0%R [1%R; 1%R; (-1)%R; (-1)%R] 2) with (-1)%R in HB. change (nthZ 0%R [1%R; 1%R; (-1)%R; (-1)%R] 3) with (-1)%R in HB.
  destruct g as [g1 g2 g3]. cbn [px py pz] in *. subst g3.
  assert (Q : (6 * (g1 - 2/3) * (g1 - 2/3) + 2 * g2 * g2 <= 0)%R) by lra.
  assert (E1 : (g1 = 2/3)%R) by nra. assert (E2 : g2 = 0%R) by nra. rewrite E1, E2. reflexivity.
Qed.
