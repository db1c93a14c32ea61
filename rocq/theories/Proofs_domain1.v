(** * Proofs_domain1: the construction of a domain succeeds; what its faces are. *)
From Coq Require Import Reals Permutation Sorted Lra.
From Verif Require Import Py PyLemmas Model_part Model_label Model_conn Spec_conn Proofs_conn1 Proofs_conn2 Proofs_conn3 Model_geom Spec_geom Proofs_geom1 Proofs_geom2 Proofs_geom3
  Model_halo Spec_halo Proofs_halo1 Proofs_halo2 Proofs_halo3 Properties_halo Model_periodic Spec_periodic Proofs_periodic2 Proofs_periodic3
  Model_interp Spec_interp Proofs_interp1 Proofs_interp2 Proofs_interp4 Properties_interp Model_fvm Spec_fvm Model_bc Model_linsys Model_domain Spec_domain.
Open Scope Z_scope.

Lemma row_ok_snoc n row L pad : row = L ++ pad ++ [zlen L] -> (forall c, In c L -> 0 <= c < n) -> row_ok n row /\ row_count row = zlen L /\ counted row = L.
Proof.
  intros -> H. rewrite app_assoc. assert (E : counted ((L ++ pad) ++ [zlen L]) = L) by (apply counted_snoc; reflexivity).
  assert (EC : row_count ((L ++ pad) ++ [zlen L]) = zlen L).
  { unfold row_count. rewrite zlen_app. change (zlen [zlen L]) with 1. replace (zlen (L ++ pad) + 1 - 1) with (zlen (L ++ pad)) by lia. apply nthZ_app_last. }
  split; [|split; [exact EC | exact E]]. unfold row_ok. rewrite E, EC, !zlen_app. change (zlen [zlen L]) with 1. pose proof (zlen_nonneg L). pose proof (zlen_nonneg pad). repeat split; try lia; apply H; assumption.
Qed.
(** [side] of a permuted facet is the same up to one sign *)
Lemma side_perm vertex F G : Permutation F G -> exists e : R, (e = 1 \/ e = -1)%R /\ forall p, side vertex F p = (e * side vertex G p)%R.
Proof.
  intros P. apply Permutation_ind_bis with (P := fun F G => forall H, exists e : R, (e = 1 \/ e = -1)%R /\ forall p, side vertex (H ++ F) p = (e * side vertex (H ++ G) p)%R) in P.
  - exact (P []).
  - intros H. exists 1%R. split; [auto|]. intros p. ring.
  - intros x l l' _ IH H. destruct (IH (H ++ [x])) as (e & He & E). exists e. split; [exact He|]. intros p. specialize (E p). rewrite <- !app_assoc in E. exact E.
  - intros x y l l' _ IH H. destruct (IH (H ++ [x; y])) as (e & He & E). exists (- e)%R. split; [destruct He; lra|]. intros p. specialize (E p). rewrite <- !app_assoc in E. cbn [app] in E.
    rewrite (side_swap vertex H x y l p). rewrite E. ring.
  - intros l l' l'' _ IH1 _ IH2 H. destruct (IH1 H) as (e1 & H1 & E1), (IH2 H) as (e2 & H2 & E2). exists (e1 * e2)%R. split; [destruct H1, H2; subst; lra|]. intros p. rewrite E1, E2. ring.
Qed.
Lemma side_point dim vertex F y : (dim = 2 \/ dim = 3) -> zlen F = dim -> vdot (vsub y (mid vertex F)) (raw_normal vertex F) = (kap dim * side vertex F y)%R.
Proof.
  intros [-> | ->] HL.
  - destruct (list2 F HL) as (a & b & ->). unfold mid, raw_normal, side. cbn [map]. unfold kap. cbn [Z.eqb Pos.eqb]. unfold turn, vdot, vsub, pscal, padd, at_node, V. cbn [px py pz]. field.
  - destruct (list3 F HL) as (a & b & c & ->). unfold mid, raw_normal, side. cbn [map]. unfold kap. cbn [Z.eqb Pos.eqb]. unfold det4, det, vdot, vsub, pscal, padd, psub, pcross, at_node, V. cbn [px py pz]. field.
Qed.
Lemma facet_zlen dim F r : facet_of dim F r -> zlen F = dim. Proof. intros (_ & H & _). exact H. Qed.

Section Dom.
Context (f32 : R -> R) (dim size : Z) (nodeid : list (list Z)) (vertex : list pt) (namen : list Z) (K : rankdata).
Hypothesis VR : valid_rank dim size nodeid vertex namen K.
Let WF := vr_mesh _ _ _ _ _ _ VR.
Let HN : zlen namen = zlen vertex := proj1 (vr_labels _ _ _ _ _ _ VR).
Let NFL := vr_nonflat _ _ _ _ _ _ VR.

Lemma Hdim : dim = 2 \/ dim = 3. Proof. exact (wm_dim _ _ _ WF). Qed.
Lemma opposite c F : has_facet dim nodeid c F -> exists x, Permutation (cell nodeid c) (x :: F) /\ In x (cell nodeid c) /\ ~ In x F.
Proof.
  intros (Hc & HF). destruct (wm_rows _ _ _ WF (cell nodeid c)) as (HL & ND & _); [apply nthZ_In; exact Hc|]. apply (facet_split dim (cell nodeid c) F ND HL HF).
Qed.
Lemma proper_conforming : conforming dim nodeid.
Proof.
  intros F a b c Ha Hb Hc. destruct (Z.eq_dec a b) as [->|N1]; [auto|]. destruct (Z.eq_dec b c) as [->|N2]; [auto|]. destruct (Z.eq_dec a c) as [->|N3]; [auto|]. exfalso.
  destruct (opposite a F Ha) as (x & _ & Ix & Nx), (opposite b F Hb) as (y & _ & Iy & Ny), (opposite c F Hc) as (z & _ & Iz & Nz).
  pose proof (vr_proper _ _ _ _ _ _ VR F a b x y Ha Hb N1 Ix Nx Iy Ny) as P1. pose proof (vr_proper _ _ _ _ _ _ VR F b c y z Hb Hc N2 Iy Ny Iz Nz) as P2.
  pose proof (vr_proper _ _ _ _ _ _ VR F a c x z Ha Hc N3 Ix Nx Iz Nz) as P3.
  set (s := side vertex F (at_node vertex x)) in *. set (t := side vertex F (at_node vertex y)) in *. set (u := side vertex F (at_node vertex z)) in *.
  assert (0 < (s * t) * (t * u))%R by (replace ((s * t) * (t * u))%R with ((- (s * t)) * (- (t * u)))%R by ring; apply Rmult_lt_0_compat; lra).
  assert (0 <= t * t)%R by apply Rle_0_sqr. assert ((s * t) * (t * u) = (t * t) * (s * u))%R by ring. assert ((t * t) * (s * u) <= 0)%R by (assert (0 <= (t * t) * (- (s * u)))%R by (apply Rmult_le_pos; lra); lra). lra.
Qed.
(** the centre of a cell is on the same side of a facet as the opposite node *)
Lemma center_same_side c F x : has_facet dim nodeid c F -> In x (cell nodeid c) -> ~ In x F ->
  exists k : R, (0 < k)%R /\ side vertex F (centerc dim vertex nodeid c) = (k * side vertex F (at_node vertex x))%R /\ side vertex F (at_node vertex x) <> 0%R.
Proof.
  intros HF Ix Nx. pose proof (facet_zlen _ _ _ (proj2 HF)) as HL. destruct (opposite c F HF) as (x' & P & _ & _). assert (x' = x).
  { apply (Permutation_in x) in P; [|exact Ix]. destruct P as [P|P]; [exact P | contradiction]. } subst x'.
  destruct (c11 dim (zlen vertex) _ (WFo dim vertex nodeid WF)) as (cn & Hcn & _).
  pose proof (center_side dim vertex nodeid WF cn Hcn c F x (proj1 HF) P HL) as E. rewrite (side_point dim vertex F _ Hdim HL) in E.
  pose proof (kap_pos dim). assert (HD : (0 < IZR dim + 1)%R) by (rewrite <- plus_IZR; apply IZR_lt; destruct Hdim; lia).
  exists (/ (IZR dim + 1))%R. split; [apply Rinv_0_lt_compat; exact HD|]. split.
  - unfold V in E. unfold at_node. apply Rmult_eq_reg_l with (kap dim); [|lra]. rewrite E. unfold Rdiv. change p0 with vzero. ring.
  - apply (nonflat_side dim vertex nodeid WF cn Hcn c F x P HL). apply NFL. exact (proj1 HF).
Qed.

(** ** the halo structure *)
Context (g : geometry).
Hypothesis Hg : build_geometry dim nodeid vertex namen = Ok g.
Let Fo := ge_facenodes g.
Let n := zlen (ge_facenodes g).
Let nbn := zlen vertex.
Definition cutf (f h : Z) : Prop := cut_by K (nthZ [] (ge_facenodes g) f) h.
Definition onhalo (k : Z) : Prop := exists f h, 0 <= f < zlen (ge_facenodes g) /\ In k (nthZ [] (ge_facenodes g) f) /\ cutf f h.
Record hfacts (h : halostruct) : Prop := {
  hf_loctoglob : h_loctoglob h = if size =? 1 then range (zlen vertex) else rk_node K;
  hf_ghost : ghost_claim dim vertex g h;
  hf_len : zlen (h_cellid h) = zlen (ge_facenodes g) /\ zlen (h_halofid h) = zlen (ge_facenodes g) /\ zlen (h_nodename h) = zlen vertex /\ zlen (h_nodehalo h) = zlen vertex /\ zlen (h_cellhalo h) = zlen nodeid;
  hf_face : forall f, 0 <= f < zlen (ge_facenodes g) ->
     ((exists c, cutf f c) -> nthZ [] (h_cellid h) f = [nthZ 0 (nthZ [] (cn_cellid (ge_conn g)) f) 0; -10] /\ nthZ 0 (h_name h) f = 10 /\ cutf f (nthZ 0 (h_halofid h) f)) /\
     ((forall c, ~ cutf f c) -> nthZ [] (h_cellid h) f = nthZ [] (cn_cellid (ge_conn g)) f /\ nthZ 0 (h_name h) f = fg_name (nthZ fg0 (ge_faces g) f));
  hf_node : forall k, 0 <= k < zlen vertex -> (onhalo k -> nthZ 0 (h_nodename h) k = 10) /\ (~ onhalo k -> nthZ 0 (h_nodename h) k = nthZ 0 namen k);
  hf_nodehalo : forall k, 0 <= k < zlen vertex -> exists W pad, nthZ [] (h_nodehalo h) k = W ++ pad ++ [zlen W] /\ NoDup W /\ forall c, In c W <-> onhalo k /\ ishalo (rk_ext K) c /\ In (nthZ 0 (rk_node K) k) (halo_nodes (rk_ext K) c);
  hf_cellhalo : forall c, iscell nodeid c -> exists U pad, nthZ [] (h_cellhalo h) c = U ++ pad ++ [zlen U] /\ NoDup U /\ forall x, In x U <-> exists k, In k (cell nodeid c) /\ onhalo k /\ ishalo (rk_ext K) x /\ In (nthZ 0 (rk_node K) k) (halo_nodes (rk_ext K) x) }.

Lemma labels10 : ~ In 10 namen.
Proof. intros H. destruct (proj2 (vr_labels _ _ _ _ _ _ VR) 10 H). destruct Hdim; lia. Qed.
Lemma cutf_dec f : (exists c, cutf f c) \/ (forall c, ~ cutf f c).
Proof. unfold cutf, cut_by. apply (touches_dec g (rk_ext K) (rk_node K) f). Qed.
Lemma cut_perm F F' h : Permutation F F' -> cut_by K F h -> cut_by K F' h.
Proof. intros P (H1 & H2). split; [exact H1|]. intros y Hy. apply H2. unfold globals in *. apply (Permutation_in y (Permutation_sym (Permutation_map (nthZ 0 (rk_node K)) P)) Hy). Qed.

Lemma halo_built : exists h, create_halo_structure dim size g vertex namen (rk_ext K) (rk_node K) = Ok h /\ hfacts h.
Proof.
  pose proof (vr_size _ _ _ _ _ _ VR) as Hsz. destruct (Z.eq_dec size 1) as [E1|N1].
  - pose proof (vr_alone _ _ _ _ _ _ VR E1) as EX.
    destruct (sequential dim vertex namen nodeid WF HN NFL g Hg (rk_ext K) (rk_node K)) as (h & E & GC & Ec & En & Enn & Elg). exists h. rewrite E1. split; [exact E|].
    assert (NC : forall F c, ~ cut_by K F c) by (intros F c (Hh & _); unfold ishalo in Hh; rewrite EX in Hh; cbn in Hh; lia).
    assert (EH : h_halofid h = zeros_like 0 (zlen (ge_facenodes g)) /\ h_nodehalo h = zeros_like [0; 0] (zlen vertex) /\ h_cellhalo h = zeros_like [0; 0] (zlen (map cg_nodes (ge_cells g)))).
    { revert E. unfold create_halo_structure. cbn [Z.ltb Z.compare Pos.compare Pos.compare_cont bind]. intros E. apply bind_ok in E as (gg & _ & E). apply bind_ok in E as (ch & _ & E). injection E as <-. cbn. auto. }
    destruct EH as (EH1 & EH2 & EH3). destruct (geometry_facts dim vertex namen nodeid WF HN g Hg) as (cn & Hcn & Ecn & Ecs & Ef & EL & PF).
    assert (Lc : zlen (cn_cellid (ge_conn g)) = zlen (ge_facenodes g)).
    { destruct (c12 dim (zlen vertex) _ (WFo dim vertex nodeid WF)) as (c' & Ec' & Lc' & _). rewrite Hcn in Ec'. injection Ec' as <-. rewrite Ecn. lia. }
    constructor.
    + replace (size =? 1) with true by lia. exact Elg.
    + exact GC.
    + rewrite Ec, EH1, EH2, EH3, Enn. rewrite !zlen_zeros_like by apply zlen_nonneg. rewrite zlen_map, Ecs, zlen_map. repeat split; try reflexivity; [exact Lc | exact HN].
    + intros f Hf. split; [intros (c & Hc); exfalso; exact (NC _ _ Hc)|]. intros _. rewrite Ec, En. split; [reflexivity|]. apply (nthZ_map fg_name fg0 0). rewrite Ef, zlen_map, zlen_range by apply zlen_nonneg. exact Hf.
    + intros k Hk. split; [intros (f & c & _ & _ & Hc); exfalso; exact (NC _ _ Hc)|]. intros _. rewrite Enn. reflexivity.
    + intros k Hk. exists [], [0]. rewrite EH2, nthZ_zeros_like by exact Hk. split; [reflexivity|]. split; [apply NoDup_nil|]. intros c. split; [intros []|]. intros (_ & Hh & _). unfold ishalo in Hh. rewrite EX in Hh. cbn in Hh. lia.
    + intros c Hc. exists [], [0]. rewrite EH3, nthZ_zeros_like. 2: { rewrite zlen_map, Ecs, zlen_map. exact Hc. } split; [reflexivity|]. split; [constructor|]. intros x. split; [intros []|]. intros (k & _ & _ & Hh & _). unfold ishalo in Hh. rewrite EX in Hh. cbn in Hh. lia.
  - destruct (vr_numbers _ _ _ _ _ _ VR ltac:(lia)) as (LN & ND & WH & c & F & hh & HF & HC).
    destruct (geometry_facts dim vertex namen nodeid WF HN g Hg) as (cn & Hcn & Ecn & Ecs & Ef & EL & PF).
    assert (Ht : exists f h, 0 <= f < zlen (ge_facenodes g) /\ halo_has (rk_node K) (rk_ext K) (nthZ [] (ge_facenodes g) f) h).
    { destruct (c11 dim (zlen vertex) _ (WFo dim vertex nodeid WF)) as (c' & Ec' & _ & HFa & _). rewrite Hcn in Ec'. injection Ec' as <-.
      assert (HI : In F (cn_faces cn)) by (apply HFa; exists c; apply has_facet_o; [exact WF | exact HF]). apply In_nthZ with (d := []) in HI. destruct HI as (f & Hf & EF). exists f, hh. split; [rewrite EL; exact Hf|].
      apply (cut_perm F); [|exact HC]. rewrite <- EF. apply Permutation_sym, PF. rewrite EL. exact Hf. }
    destruct (whole dim vertex namen nodeid WF HN NFL g Hg size (rk_ext K) (rk_node K) ltac:(lia) LN ND WH Ht labels10) as (h & E & GC & L1 & L2 & L3 & Elg & Hfa & Hn & L4 & HW & L5 & HU).
    exists h. split; [exact E|]. constructor.
    + replace (size =? 1) with false by lia. exact Elg.
    + exact GC.
    + repeat split; assumption.
    + exact Hfa.
    + exact Hn.
    + intros k Hk. destruct (HW k Hk) as (W & pad & EW & SW & HI). exists W, pad. split; [exact EW|]. split; [apply sorted_lt_NoDup; exact SW | exact HI].
    + intros i Hi. destruct (HU i Hi) as (U & pad & EU & NU & HI). exists U, pad. split; [exact EU|]. split; [exact NU | exact HI].
Qed.
End Dom.
