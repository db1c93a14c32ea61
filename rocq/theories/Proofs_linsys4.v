(** * Proofs_linsys4: the diamond flux and the rows of the matrix (C39). *)
From Verif Require Import Py PyLemmas Model_part Model_conn Spec_conn Model_geom Spec_geom Model_halo Model_interp Spec_interp Proofs_conn1 Proofs_interp1 Proofs_interp2 Proofs_interp4 Model_bc Model_linsys Spec_linsys Proofs_linsys1 Proofs_linsys2 Proofs_linsys3 Proofs_fvm1.
From Coq Require Import ZifyBool Permutation Lra.
Open Scope Z_scope.

(** ** the flux *)
Section Flux.
Context (dim : Z) (G : facedata) (WF : wf_facedata dim G).
Notation dd := (Proofs_interp4.dia dim G).
(** coefficients of the flux: left value, node values, right value *)
Definition flux_of (d : diamond) (wl wr : R) (v : Z -> R) : option R :=
  if dim =? 2 then match di_p1 d, di_p2 d, di_p3 d, di_p4 d with Some p1, Some p2, Some p3, Some p4 => Some (p1 * wl + p4 * v 0%Z + p2 * v 1%Z + p3 * wr)%R | _, _, _, _ => None end
  else match di_p1 d, di_p2 d, di_p3 d with Some p1, Some p2, Some p3 => Some (p3 * (wr - wl) + p1 * (v 0%Z - v 2%Z) + p2 * (v 1%Z - v 2%Z))%R | _, _, _ => None end.
Lemma flux_ok f wl wr vn g : 0 <= f < zlen (fd_cellid G) -> normal_of_nodes dim G f ->
  side (fd_vertex G) (nthZ [] (fd_nodes G) f) (fst (face_other dim G f)) <> side (fd_vertex G) (nthZ [] (fd_nodes G) f) (face_left G f) ->
  diamond_gradient dim G f wl wr vn g ->
  flux_of (dd f) wl wr (fun j => vn (nthZ 0 (nthZ [] (fd_nodes G) f) j)) = Some (vdot g (nthZ vzero (fd_normal G) f)).
Proof.
  intros Hi HN HS (Hg & HC & HV). destruct (wfa_face _ _ WF f Hi) as (_ & _ & R3 & R4 & _).
  unfold flux_of, Proofs_interp4.dia, xnode, normal_of_nodes in *. set (v1 := face_left G f) in *. set (v2 := fst (face_other dim G f)) in *.
  destruct (wfa_dim _ _ WF) as [Ed|Ed].
  - replace (dim =? 2) with true by lia. cbv zeta. destruct (nthZ [] (fd_nodes G) f) as [|k1 [|k2 [|]]] eqn:EF; try (rewrite !zlen_cons in R3; pose proof (zlen_nonneg l); lia); try (unfold zlen in R3; cbn in R3; lia).
    change (nthZ 0 [k1; k2] 0) with k1. change (nthZ 0 [k1; k2] 1) with k2. pose proof (HV k2 k1 (or_intror (or_introl eq_refl)) (or_introl eq_refl)) as HT. clear HV.
    unfold side in HS. cbn [map] in HS. set (a := at_node (fd_vertex G) k1) in *. set (b := at_node (fd_vertex G) k2) in *. specialize (Hg Ed).
    unfold dia2. cbn [di_p1 di_p2 di_p3 di_p4]. set (air := (1/2 * _)%R).
    assert (HA : (2 * air)%R <> 0%R). { unfold air. intros E. apply HS. unfold turn. lra. }
    rewrite !odiv_some by exact HA. f_equal. set (n := nthZ vzero (fd_normal G) f). destruct g as [g1 g2 g3]. cbn [pz] in Hg. subst g3.
    unfold vdot, vsub in *. cbn [px py pz] in *. unfold disp. cbn [Z.eqb Pos.eqb px py pz].
    apply (Rmult_eq_reg_l (2 * air)%R); [|exact HA].
    transitivity (((wl - wr) * ((py b - py a) * px n - (px b - px a) * py n) + (vn k2 - vn k1) * ((py v2 - py v1) * px n - (px v2 - px v1) * py n))%R).
    { set (q := (1 / (2 * air))%R). assert (EQ : (2 * air * q)%R = 1%R) by (unfold q; field; lra). match goal with |- (2 * air * (q * ?A * wl + q * ?B * vn k1 + q * ?C * vn k2 + q * ?D * wr))%R = ?T => transitivity ((2 * air * q) * (A * wl + B * vn k1 + C * vn k2 + D * wr))%R; [ring | rewrite EQ; ring] end. }
    rewrite <- HT. replace (wl - wr)%R with (- (wr - wl))%R by ring. rewrite <- HC. unfold air. field.
  - replace (dim =? 2) with false by lia. cbv zeta. specialize (HN Ed). destruct (nthZ [] (fd_nodes G) f) as [|k1 [|k2 [|k3 [|]]]] eqn:EF; try contradiction.
    change (nthZ 0 [k1; k2; k3] 0) with k1. change (nthZ 0 [k1; k2; k3] 1) with k2. change (nthZ 0 [k1; k2; k3] 2) with k3.
    pose proof (HV k1 k3 ltac:(cbn; tauto) ltac:(cbn; tauto)) as H13. pose proof (HV k2 k3 ltac:(cbn; tauto) ltac:(cbn; tauto)) as H23. rewrite <- HC, <- H13, <- H23. clear HC HV H13 H23.
    unfold side in HS. cbn [map] in HS, HN. set (a := at_node (fd_vertex G) k1) in *. set (b := at_node (fd_vertex G) k2) in *. set (d := at_node (fd_vertex G) k3) in *.
    set (n := nthZ vzero (fd_normal G) f) in *.
    pose proof (HN (P3 1 0 0)) as N1. pose proof (HN (P3 0 1 0)) as N2. pose proof (HN (P3 0 0 1)) as N3. clear HN.
    unfold det4 in HS. unfold vdot, det, vsub in *. cbn [px py pz] in *.
    destruct n as [n1 n2 n3], a as [a1 a2 a3], b as [b1 b2 b3], d as [d1 d2 d3], v1 as [u1 u2 u3], v2 as [w1 w2 w3], g as [g1 g2 g3]. cbn [px py pz] in *.
    unfold dia3, pdot, psub, padd, pscal, pcross. cbn [di_p1 di_p2 di_p3 px py pz].
    match type of N1 with _ = ?t => assert (E1 : n1 = t) by lra end. match type of N2 with _ = ?t => assert (E2 : n2 = t) by lra end. match type of N3 with _ = ?t => assert (E3 : n3 = t) by lra end. clear N1 N2 N3. subst n1 n2 n3.
    match goal with |- match odiv _ ?A with _ => _ end = _ => assert (HA : A <> 0%R) by (intros E; apply HS; lra) end.
    rewrite !odiv_some by exact HA. f_equal. match type of HA with ?A <> _ => apply (Rmult_eq_reg_r A); [|exact HA]; unfold Rdiv;
      match goal with |- ((?p * / A * ?x + ?q * / A * ?y + ?r * / A * ?z) * A)%R = _ =>
        transitivity ((p * x + q * y + r * z) * (/ A * A))%R; [ring|] end; rewrite Rinv_l, Rmult_1_r by exact HA; field end.
Qed.
(** the face gradient of the code is the diamond gradient *)
Lemma fgrad_diamond W w_node i : 0 <= i < zlen (fd_cellid G) -> normal_of_nodes dim G i ->
  side (fd_vertex G) (nthZ [] (fd_nodes G) i) (fst (face_other dim G i)) <> side (fd_vertex G) (nthZ [] (fd_nodes G) i) (face_left G i) ->
  forall wr, exists g, fgrad dim G W w_node i wr = Some g /\ diamond_gradient dim G i (left_value G W i) wr (nthZ 0%R w_node) g.
Proof.
  intros Hi HN HS wr. destruct (wfa_face _ _ WF i Hi) as (_ & _ & R3 & R4 & _).
  unfold fgrad, Proofs_interp4.dia, normal_of_nodes, wnode, xnode, diamond_gradient in *. set (v1 := face_left G i) in *. set (v2 := fst (face_other dim G i)) in *. set (wl := left_value G W i).
  destruct (wfa_dim _ _ WF) as [Ed|Ed].
  - replace (dim =? 2) with true by lia. cbv zeta. destruct (nthZ [] (fd_nodes G) i) as [|k1 [|k2 [|]]] eqn:EF; try (rewrite !zlen_cons in R3; pose proof (zlen_nonneg l); lia); try (unfold zlen in R3; cbn in R3; lia).
    change (nthZ 0 [k1; k2] 0) with k1. change (nthZ 0 [k1; k2] 1) with k2.
    unfold side in HS. cbn [map] in HS. set (w1 := nthZ 0%R w_node k1). set (w2 := nthZ 0%R w_node k2).
    unfold dia2. cbn [di_f1 di_f2 di_f3 di_f4 di_air]. set (a := at_node (fd_vertex G) k1) in *. set (b := at_node (fd_vertex G) k2) in *. set (air := (1/2 * _)%R).
    assert (HA : (2 * air)%R <> 0%R). { unfold air. intros E. apply HS. unfold turn. lra. }
    rewrite !odiv_some by exact HA. eexists. split; [reflexivity|]. split; [intros _; reflexivity|].
    set (gx := (1 / (2 * air) * _)%R). set (gy := (-1 / (2 * air) * _)%R).
    assert (EX : (2 * air * gx)%R = ((wl - wr) * (py b - py a) + (w2 - w1) * (py v2 - py v1))%R).
    { unfold gx. rewrite <- Rmult_assoc. replace (2 * air * (1 / (2 * air)))%R with 1%R by (field; lra). unfold disp. cbn [Z.eqb Pos.eqb px py pz]. ring. }
    assert (EY : (2 * air * gy)%R = (- ((wl - wr) * (px b - px a) + (w2 - w1) * (px v2 - px v1)))%R).
    { unfold gy. rewrite <- Rmult_assoc. replace (2 * air * (-1 / (2 * air)))%R with (-1)%R by (field; lra). unfold disp. cbn [Z.eqb Pos.eqb px py pz]. ring. }
    clearbody gx gy.
    assert (T : forall q w, (2 * air * (gx * px q + gy * py q))%R = (2 * air * w)%R -> vdot (P3 gx gy 0) q = w).
    { intros q w H. apply Rmult_eq_reg_l in H; [|exact HA]. unfold vdot. cbn [px py pz]. rewrite Rmult_0_l, Rplus_0_r. exact H. }
    assert (B12 : vdot (P3 gx gy 0) (vsub b a) = (w2 - w1)%R).
    { apply T. rewrite Rmult_plus_distr_l, <- !Rmult_assoc, EX, EY. unfold air, vsub. cbn [px py pz]. field. }
    split.
    + apply T. rewrite Rmult_plus_distr_l, <- !Rmult_assoc, EX, EY. unfold air, vsub. cbn [px py pz]. field.
    + assert (Z0 : forall p, vdot (P3 gx gy 0) (vsub p p) = 0%R) by (intros; unfold vdot, vsub; cbn [px py pz]; ring).
      intros p q [<-|[<-|[]]] [<-|[<-|[]]]; fold a b w1 w2; [rewrite Z0; ring | | exact B12 | rewrite Z0; ring].
      replace (w1 - w2)%R with (- (w2 - w1))%R by ring. rewrite <- B12. unfold vdot, vsub. cbn [px py pz]. ring.
  - replace (dim =? 2) with false by lia. cbv zeta. specialize (HN Ed). destruct (nthZ [] (fd_nodes G) i) as [|k1 [|k2 [|k3 [|]]]] eqn:EF; try contradiction.
    change (nthZ 0 [k1; k2; k3] 0) with k1. change (nthZ 0 [k1; k2; k3] 1) with k2. change (nthZ 0 [k1; k2; k3] 2) with k3.
    unfold side in HS. cbn [map] in HS, HN. set (a := at_node (fd_vertex G) k1) in *. set (b := at_node (fd_vertex G) k2) in *. set (d := at_node (fd_vertex G) k3) in *.
    set (wa := nthZ 0%R w_node k1). set (wb := nthZ 0%R w_node k2). set (wd := nthZ 0%R w_node k3).
    set (n := nthZ vzero (fd_normal G) i) in *.
    pose proof (HN (P3 1 0 0)) as N1. pose proof (HN (P3 0 1 0)) as N2. pose proof (HN (P3 0 0 1)) as N3. clear HN.
    assert (EN : n = P3 (/ 2 * det (vsub b a) (vsub d a) (P3 1 0 0)) (/ 2 * det (vsub b a) (vsub d a) (P3 0 1 0)) (/ 2 * det (vsub b a) (vsub d a) (P3 0 0 1))).
    { destruct n as [n1 n2 n3]. unfold vdot in N1, N2, N3. cbn [px py pz] in N1, N2, N3. f_equal; lra. }
    clearbody n. subst n. clear N1 N2 N3.
    unfold dia3. cbn [di_f1 di_f2 di_air].
    set (n := P3 _ _ _). set (m1 := padd _ (pscal _ (pcross (psub d b) _))). set (m2 := padd _ (pscal _ (pcross (psub a d) _))). set (air := pdot n (psub v2 v1)).
    assert (HA : air <> 0%R). { intros E. apply HS. unfold det4, air, n, pdot, psub, det, vsub in *. cbn [px py pz] in *. lra. }
    rewrite !odiv_some by exact HA. eexists. split; [reflexivity|]. split; [intros E2; lia|].
    set (num := fun c : pt -> R => (c m1 * (wa - wd) + c m2 * (wb - wd) + c n * (wr - wl))%R).
    change (vdot (P3 (num px / air) (num py / air) (num pz / air)) (vsub v2 v1) = (wr - wl)%R /\ (forall a0 b0, In a0 [k1; k2; k3] -> In b0 [k1; k2; k3] -> vdot (P3 (num px / air) (num py / air) (num pz / air)) (vsub (at_node (fd_vertex G) a0) (at_node (fd_vertex G) b0)) = (nthZ 0 w_node a0 - nthZ 0 w_node b0)%R)).
    assert (T : forall q w, (num px * px q + num py * py q + num pz * pz q)%R = (w * air)%R -> vdot (P3 (num px / air) (num py / air) (num pz / air)) q = w).
    { intros q w H. unfold vdot. cbn [px py pz]. replace w with ((w * air) / air)%R by (field; exact HA). rewrite <- H. unfold Rdiv. ring. }
    clear HS HA.
    assert (A13 : vdot (P3 (num px / air) (num py / air) (num pz / air)) (vsub a d) = (wa - wd)%R).
    { apply T. unfold num, air, n, m1, m2, pdot, psub, padd, pscal, pcross, vsub, det. cbn [px py pz]. field. }
    assert (A23 : vdot (P3 (num px / air) (num py / air) (num pz / air)) (vsub b d) = (wb - wd)%R).
    { apply T. unfold num, air, n, m1, m2, pdot, psub, padd, pscal, pcross, vsub, det. cbn [px py pz]. field. }
    split.
    + apply T. unfold num, air, n, m1, m2, pdot, psub, padd, pscal, pcross, vsub, det. cbn [px py pz]. field.
    + clear T. set (g := P3 (num px / air) (num py / air) (num pz / air)) in *. clearbody g.
      assert (P : forall k, In k [k1; k2; k3] -> vdot g (vsub (at_node (fd_vertex G) k) d) = (nthZ 0 w_node k - wd)%R).
      { intros k [<-|[<-|[<-|[]]]]; [exact A13 | exact A23 |]. fold d wd. unfold vdot, vsub. cbn [px py pz]. ring. }
      intros p q Hp Hq. apply P in Hp, Hq. unfold vdot, vsub in *. cbn [px py pz] in *. lra.
Qed.
End Flux.
