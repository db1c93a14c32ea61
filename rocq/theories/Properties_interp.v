(** * Properties_interp: C24-C28.
    Vocabulary: [Spec_interp] ([stencil], [cell_stencil], [face_other], [value_at], [affine], [spans], [across], [increment] ...). *)
From Verif Require Import Py PyLemmas Model_part Model_conn Spec_conn Model_geom Spec_geom Model_halo Model_interp Spec_interp Proofs_interp1 Proofs_interp2 Proofs_interp3 Proofs_interp4 Proofs_interp5.
From Coq Require Import Permutation Lra ZifyBool.
Open Scope Z_scope.

(** C24.  The precomputation never fails; around every node whose surrounding points do not lie on a line (2D) / in a plane
    (3D) the interpolation is a weighted mean of the surrounding values with weights that do not depend on the data and sum
    to one, and data sampled from an affine function give the value of that function at the node. *)
Theorem C24_vertex_interpolation : forall dim N nf nhg, wf_nodedata dim N nf nhg ->
  exists nvs, variables dim N = Ok nvs /\
  (forall W, wf_values W (zlen (nd_centerc N)) nf (zlen (nd_centerh N)) nhg -> exists wn, centertovertex dim N nvs W = Ok wn /\ zlen wn = zlen (nd_vertex N)) /\
  forall i, 0 <= i < zlen (nd_vertex N) -> spans dim (map fst (stencil dim N i)) ->
  exists a, zlen a = zlen (stencil dim N i) /\ rsum a = 1%R /\
  forall W wn, wf_values W (zlen (nd_centerc N)) nf (zlen (nd_centerh N)) nhg -> centertovertex dim N nvs W = Ok wn ->
    nthZ None wn i = Some (rsum (map (fun ap => (fst ap * value_at W (snd ap))%R) (combine a (map snd (stencil dim N i))))) /\
    forall c g, gradient dim g -> (forall p s, In (p, s) (stencil dim N i) -> value_at W s = affine c g p) ->
      nthZ None wn i = Some (affine c g (nthZ vzero (nd_vertex N) i)).
Proof.
  intros dim N nf nhg WF. eexists. split; [apply (variables_ok dim N nf nhg WF)|]. split.
  { intros W WW. eexists. split; [eapply (centertovertex_ok dim N nf nhg WF W WW), (variables_ok dim N nf nhg WF)|]. rewrite zlen_map, zlen_range by apply zlen_nonneg. reflexivity. }
  intros i Hi HS. destruct (weights_ok dim N i (wn_dim _ _ _ _ WF) HS) as (HV & HA). cbv zeta in HA. exists (weights dim N i).
  assert (EL : forall W, map (fun ap => (fst ap * value_at W (snd (snd ap)))%R) (combine (weights dim N i) (stencil dim N i)) = map (fun ap => (fst ap * value_at W (snd ap))%R) (combine (weights dim N i) (map snd (stencil dim N i)))).
  { intros W. generalize (weights dim N i) as l. generalize (stencil dim N i) as s. induction s as [|p s IH]; intros [|x l]; cbn; [reflexivity..|]. f_equal. apply IH. }
  assert (ZL : zlen (weights dim N i) = zlen (stencil dim N i)) by (unfold weights; apply zlen_map).
  split; [exact ZL|]. split.
  { specialize (HA 1%R vzero ltac:(intros _; reflexivity)). unfold affine, vdot, vzero in HA. cbn [px py pz] in HA. rewrite <- (Rplus_0_r 1). replace (1 + 0)%R with (1 + (0 * px (nthZ (P3 0 0 0) (nd_vertex N) i) + 0 * py (nthZ (P3 0 0 0) (nd_vertex N) i) + 0 * pz (nthZ (P3 0 0 0) (nd_vertex N) i)))%R by ring. rewrite <- HA.
    clear - ZL. revert ZL. generalize (weights dim N i) as l. generalize (stencil dim N i) as s. induction s as [|p s IH]; intros [|x l] ZL; cbn; [reflexivity | | |]; try (rewrite ?zlen_cons in ZL; pose proof (zlen_nonneg l); unfold zlen in ZL; cbn in ZL; lia).
    { rewrite zlen_cons in ZL. pose proof (zlen_nonneg s). change (@zlen R []) with 0 in ZL. lia. }
    fold (rsum l). rewrite (IH l) by (rewrite !zlen_cons in ZL; lia). unfold rsum. ring. }
  intros W wn WW E. rewrite (centertovertex_ok dim N nf nhg WF W WW _ (variables_ok dim N nf nhg WF)) in E. injection E as <-.
  rewrite (nthZ_map _ 0) by (rewrite zlen_range; lia). rewrite nthZ_range by lia. rewrite HV. split; [rewrite EL; reflexivity|].
  intros c g Hg HS'. f_equal. rewrite <- HA by exact Hg. f_equal. apply map_ext_in. intros (x, (p, s)) Hin. cbn [fst snd]. rewrite (HS' p s); [reflexivity|]. apply in_combine_r in Hin. exact Hin.
Qed.
Print Assumptions C24_vertex_interpolation.

(** ... and when the surrounding points do lie on a line / in a plane no value is produced (division by zero), for any data *)
Theorem C24_degenerate : forall dim N nf nhg W, wf_nodedata dim N nf nhg -> wf_values W (zlen (nd_centerc N)) nf (zlen (nd_centerh N)) nhg ->
  exists nvs wn, variables dim N = Ok nvs /\ centertovertex dim N nvs W = Ok wn /\
  forall i a b, 0 <= i < zlen (nd_vertex N) -> stencil dim N i <> [] -> gradient dim b -> b <> vzero ->
    (forall p s, In (p, s) (stencil dim N i) -> affine a b p = 0%R) -> nthZ None wn i = None.
Proof.
  intros dim N nf nhg W WF WW. eexists. eexists. split; [apply (variables_ok dim N nf nhg WF)|]. split; [apply (centertovertex_ok dim N nf nhg WF W WW _ (variables_ok dim N nf nhg WF))|].
  intros i a b Hi HN Hb Hb0 HA. rewrite (nthZ_map _ 0) by (rewrite zlen_range; lia). rewrite nthZ_range by lia. apply (degenerate_none dim N W i a b (wn_dim _ _ _ _ WF) HN Hb Hb0 HA).
Qed.
Print Assumptions C24_degenerate.

(** the padded ghost tables: every row is acceptable to the interpolation and its real entries are those of the list it was made from *)
Theorem C24_ghost_padding : forall n rows, (forall r e, In r rows -> In e r -> g_cell e <> -1 /\ 0 <= g_last e < n) ->
  zlen (pad_rows rows) = zlen rows /\
  forall i, 0 <= i < zlen rows -> ghost_row_ok n (nthZ [] (pad_rows rows) i) /\ real_ghosts (nthZ [] (pad_rows rows) i) = nthZ [] rows i.
Proof.
  intros n rows H. unfold pad_rows. cbv zeta. set (m := fold_left _ rows 0). split; [apply zlen_map|]. intros i Hi. rewrite (nthZ_map _ []) by exact Hi.
  assert (Hr : forall e, In e (nthZ [] rows i) -> g_cell e <> -1 /\ 0 <= g_last e < n) by (intros e He; apply (H (nthZ [] rows i) e); [apply nthZ_In; exact Hi | exact He]).
  set (r := nthZ [] rows i) in *. set (k := Z.to_nat (m - zlen r)).
  assert (FR : forall j, real_ghosts (repeat gpad j) = []) by (induction j as [|j IH]; [reflexivity | exact IH]).
  assert (F1 : forall l, (forall e, In e l -> g_cell e <> -1 /\ 0 <= g_last e < n) -> real_ghosts l = l).
  { induction l as [|e l IH]; intros Hl; [reflexivity|]. unfold real_ghosts in *. cbn [filter]. destruct (Hl e (or_introl eq_refl)) as (_ & He). replace (g_last e =? -1) with false by lia. cbn [negb]. f_equal. apply IH. intros; apply Hl; right; assumption. }
  assert (F2 : real_ghosts (r ++ repeat gpad k) = r) by (unfold real_ghosts in *; rewrite filter_app, F1, FR by exact Hr; apply app_nil_r).
  destruct (zlen (r ++ repeat gpad k) =? 0) eqn:E.
  - assert (E0 : r ++ repeat gpad k = []) by (destruct (r ++ repeat gpad k) as [|x l]; [reflexivity | rewrite zlen_cons in E; pose proof (zlen_nonneg l); lia]). rewrite E0 in F2 |- *. cbn [app]. cbn in F2. rewrite <- F2.
    split; [|reflexivity]. split; [cbn; lia|]. split; [intros _; reflexivity|]. intros e He. cbn in He. contradiction.
  - rewrite F2. split; [|reflexivity]. pose proof (zlen_nonneg (r ++ repeat gpad k)). split; [lia|]. rewrite F2. split; [|intros e He; apply Hr; exact He].
    intros E1. destruct r as [|e l]; [reflexivity|]. exfalso. destruct (Hr e (or_introl eq_refl)) as (He & _). apply He. exact E1.
Qed.
Print Assumptions C24_ghost_padding.

(** C25.  On data sampled from an affine function the gradient of every cell whose surrounding points span the space from
    its centre is the gradient of that function (in 3D for a cell without periodic neighbours, see the refutation below). *)
Theorem C25_cell_gradient : forall dim C nbnodes nf nhg W, wf_celldata dim C nbnodes nf nhg ->
  wf_values W (zlen (cd_centerc C)) nf (zlen (cd_centerh C)) nhg ->
  (dim = 2 \/ (forall i, 0 <= i < zlen (cd_centerc C) -> row_count (nthZ [] (cd_periodicnid C) i) = 0)) ->
  exists gs, cell_gradient dim C W = Ok gs /\ zlen gs = zlen (cd_centerc C) /\
  forall i c g, 0 <= i < zlen (cd_centerc C) -> gradient dim g -> spans_from dim (nthZ vzero (cd_centerc C) i) (map fst (cell_stencil dim C i)) ->
    nthZ 0%R (w_c W) i = affine c g (nthZ vzero (cd_centerc C) i) -> (forall p s, In (p, s) (cell_stencil dim C i) -> value_at W s = affine c g p) ->
    nthZ None gs i = Some g.
Proof.
  intros dim C nbnodes nf nhg W WF WW HP.
  assert (HP' : dim = 3 -> forall i, 0 <= i < zlen (cd_centerc C) -> row_count (nthZ [] (cd_periodicnid C) i) = 0) by (intros E; destruct HP as [H|H]; [lia | exact H]).
  destruct (cell_gradient_total dim C nbnodes nf nhg WF W WW HP') as (gs & E & EL). exists gs. split; [exact E|]. split; [exact EL|].
  intros i c g Hi Hg HS Hc HV. destruct (cell_gradient_at dim C nbnodes nf nhg WF W WW gs i E Hi (fun Ed => HP' Ed i Hi)) as (_ & ->).
  apply (grad_exact dim W _ g _ _ (wc_dim _ _ _ _ _ WF) Hg HS). intros (p, s) Hin. cbn [fst snd]. rewrite (HV p s Hin), Hc. unfold affine, vdot, disp. cbn [px py pz].
  destruct (dim =? 2) eqn:Ed; [rewrite Hg by lia|]; ring.
Qed.
Print Assumptions C25_cell_gradient.


(** C26.  Every face handed to the gradient whose two sides differ gets the gradient of the affine function its four values
    (five in 3D) are sampled from; the entries of the other faces are not touched. *)
Theorem C26_face_gradient : forall dim G L, wf_facedata dim G -> lists_ok dim G L ->
  exists D, face_gradient_info dim G = Ok D /\
  forall W w_node g0, zlen (w_c W) = zlen (fd_centerc G) -> zlen (w_ghost W) = zlen (fd_cellid G) -> zlen (w_halo W) = zlen (fd_centerh G) ->
    zlen w_node = zlen (fd_vertex G) -> zlen g0 = zlen (fd_cellid G) ->
  exists gs, face_gradient dim G D L W w_node g0 = Ok gs /\ zlen gs = zlen g0 /\
  forall i, 0 <= i < zlen (fd_cellid G) ->
    (~ listed L i -> nthZ None gs i = nthZ None g0 i) /\
    forall c g, listed L i -> gradient dim g -> normal_of_nodes dim G i ->
      side (fd_vertex G) (nthZ [] (fd_nodes G) i) (fst (face_other dim G i)) <> side (fd_vertex G) (nthZ [] (fd_nodes G) i) (face_left G i) ->
      left_value G W i = affine c g (face_left G i) ->
      value_at W (snd (face_other dim G i)) = affine c g (fst (face_other dim G i)) ->
      (forall k, In k (nthZ [] (fd_nodes G) i) -> nthZ 0%R w_node k = affine c g (at_node (fd_vertex G) k)) ->
      nthZ None gs i = Some g.
Proof.
  intros dim G L WF LO. eexists. split; [apply (face_info_ok dim G WF)|]. intros W w_node g0 H1 H2 H3 H4 H5.
  destruct (face_gradient_ok dim G WF W w_node L LO H1 H2 H3 H4 g0 H5) as (gs & E & EL & H). exists gs. split; [exact E|]. split; [congruence|].
  intros i Hi. destruct (H i Hi) as (A & B). split; [exact B|]. intros c g HL Hg HN HS Hl Hr Hk. rewrite A by exact HL. eapply fgrad_exact; eassumption.
Qed.
Print Assumptions C26_face_gradient.

(** C27.  The limiter of every cell is between 0 and 1.  The limited increment keeps the reconstruction at the centre of each
    face of the cell between the smallest and the largest of the values of the cell and of its neighbours across faces, unless
    the increment is below the threshold of the code, and then the overshoot is below the threshold as well.  The limiter is
    the largest such factor: it is one unless the reconstruction reaches the extreme value at the centre of some face. *)
Theorem C27_limiter : forall dim B W grads, wf_limdata dim B W -> zlen grads = zlen (w_c W) ->
  exists psi, barthlimiter dim B W grads = Ok psi /\ zlen psi = zlen (w_c W) /\
  forall i, 0 <= i < zlen (w_c W) ->
    let p := nthZ 0%R psi i in let w := nthZ 0%R (w_c W) i in let fs := nthZ [] (ld_faceid B) i in
    (0 <= p <= 1)%R /\
    (forall lo hi, (lo <= w <= hi)%R -> (forall f, In f fs -> (lo <= across B W i f <= hi)%R) ->
       forall f, In f fs -> (lo - threshold dim <= w + p * increment dim B grads i f <= hi + threshold dim)%R /\
         ((threshold dim <= Rabs (increment dim B grads i f))%R -> (lo <= w + p * increment dim B grads i f <= hi)%R)) /\
    (p = 1%R \/ exists f, In f fs /\
       ((0 < increment dim B grads i f)%R /\ (forall f', In f' fs -> (across B W i f' <= w + p * increment dim B grads i f)%R) /\ (w <= w + p * increment dim B grads i f)%R \/
        (increment dim B grads i f < 0)%R /\ (forall f', In f' fs -> (w + p * increment dim B grads i f <= across B W i f')%R) /\ (w + p * increment dim B grads i f <= w)%R)).
Proof.
  intros dim B W grads WF HG.
  destruct (mapM_total (barth_cell dim B W grads) (range (zlen (w_c W)))) as (psi & E); [intros i Hi; apply in_range in Hi; destruct (barth_cell_ok dim B W grads WF HG i Hi) as (mm & p & Ep & _); eauto|].
  exists psi. split; [exact E|]. assert (EL : zlen psi = zlen (w_c W)) by (apply mapM_zlen in E; rewrite E, zlen_range; [reflexivity | apply zlen_nonneg]). split; [exact EL|].
  intros i Hi. cbv zeta. destruct (barth_cell_ok dim B W grads WF HG i Hi) as (mm & p & Ep & (S1 & S2 & B1 & B2) & (L1 & L2 & L3)).
  assert (EP : nthZ 0%R psi i = p) by (pose proof (mapM_nthZ _ _ _ 0 0%R i E ltac:(rewrite zlen_range; lia)) as Q; rewrite nthZ_range in Q by lia; rewrite Ep in Q; injection Q as <-; reflexivity).
  rewrite EP. fold (wi W i) (faces B i) in *. split; [exact L1|]. pose proof (threshold_pos dim) as TP. split.
  - intros lo hi Hw Ha f Hf.
    assert (Q : forall v, seen B W i v -> (lo <= v <= hi)%R) by (intros v [-> | (f' & Hf' & ->)]; [exact Hw | apply Ha; exact Hf']). pose proof (Q _ S1) as Q1. pose proof (Q _ S2) as Q2.
    set (d := increment dim B grads i f) in *.
    destruct (Rlt_dec (Rabs d) (threshold dim)) as [D|D].
    + split; [|intros; lra]. assert (Hpd : (Rabs (p * d) < threshold dim)%R).
      { rewrite Rabs_mult. rewrite (Rabs_pos_eq p) by lra. pose proof (Rabs_pos d). pose proof (Rmult_le_compat_r (Rabs d) p 1 ltac:(lra) ltac:(lra)). lra. }
      apply Rabs_def2 in Hpd. lra.
    + apply Rnot_lt_le in D. pose proof (L2 f Hf D) as Q3. fold d in Q3. split; [lra | intros _; lra].
  - destruct L3 as [-> | (f & Hf & _ & [(Hd & He) | (Hd & He)])]; [left; reflexivity | right | right]; exists f; (split; [exact Hf|]).
    + left. split; [exact Hd|]. rewrite He. split; [intros f' Hf'; apply B2; exact Hf' | lra].
    + right. split; [exact Hd|]. rewrite He. split; [intros f' Hf'; apply B2; exact Hf' | lra].
Qed.
Print Assumptions C27_limiter.

(** C28.  Every cell gets the mean of the values of its faces: it lies between any bounds of them, and equal values are reproduced. *)
Theorem C28_facetocell : forall dim u_face u_c faceidc, (dim = 2 \/ dim = 3) -> zlen faceidc = zlen u_c ->
  (forall i, 0 <= i < zlen u_c -> zlen (nthZ [] faceidc i) = dim + 1 /\ forall f, In f (nthZ [] faceidc i) -> 0 <= f < zlen u_face) ->
  exists u, facetocell u_face u_c faceidc dim = Ok u /\ zlen u = zlen u_c /\
  forall i, 0 <= i < zlen u_c -> let vs := map (nthZ 0%R u_face) (nthZ [] faceidc i) in
    (IZR (dim + 1) * nthZ 0%R u i = rsum vs)%R /\
    (forall lo hi, (forall v, In v vs -> (lo <= v <= hi)%R) -> (lo <= nthZ 0%R u i <= hi)%R) /\
    (forall k, (forall v, In v vs -> v = k) -> nthZ 0%R u i = k).
Proof.
  intros dim u_face u_c faceidc Hd HL HR.
  assert (FA : forall i, 0 <= i < zlen u_c -> firstn (Z.to_nat (dim + 1)) (nthZ [] faceidc i) = nthZ [] faceidc i) by (intros i Hi; destruct (HR i Hi) as (H & _); apply firstn_all2; unfold zlen in H; lia).
  eexists. split; [apply facetocell_ok; [lia | exact HL |]|].
  { intros i Hi. destruct (HR i Hi) as (H1 & H2). split; [lia|]. rewrite FA by exact Hi. exact H2. }
  split; [rewrite zlen_map, zlen_range by apply zlen_nonneg; reflexivity|]. intros i Hi. cbv zeta. rewrite (nthZ_map _ 0) by (rewrite zlen_range; lia). rewrite nthZ_range by lia. rewrite FA by exact Hi.
  set (vs := map (nthZ 0%R u_face) (nthZ [] faceidc i)). assert (HP : (0 < IZR (dim + 1))%R) by (apply IZR_lt; lia). assert (HLv : zlen vs = dim + 1) by (unfold vs; rewrite zlen_map; apply HR; exact Hi).
  assert (HB : forall lo hi, (forall v, In v vs -> (lo <= v <= hi)%R) -> (lo <= rsum vs / IZR (dim + 1) <= hi)%R).
  { intros lo hi H. apply rsum_bounds in H. rewrite HLv in H. split; [apply Rmult_le_reg_l with (IZR (dim + 1)); [exact HP|] | apply Rmult_le_reg_l with (IZR (dim + 1)); [exact HP|]]; replace (IZR (dim + 1) * (rsum vs / IZR (dim + 1)))%R with (rsum vs) by (field; lra); lra. }
  split; [field; lra|]. split; [exact HB|]. intros k Hk. specialize (HB k k ltac:(intros v Hv; rewrite (Hk v Hv); lra)). lra.
Qed.
Print Assumptions C28_facetocell.
