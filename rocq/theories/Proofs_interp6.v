(** * Proofs_interp6: the gradient at a face for arbitrary data. *)
From Verif Require Import Py PyLemmas Model_part Model_conn Spec_conn Proofs_conn1 Proofs_conn2 Model_geom Spec_geom Proofs_geom1 Model_interp Spec_interp Proofs_interp1 Proofs_interp2 Proofs_interp4.
From Coq Require Import Permutation Lra Psatz ZifyBool.
Open Scope Z_scope.

Section Face6.
Context (dim : Z) (G : facedata) (WF : wf_facedata dim G).
Context (W : values) (w_node : list R).
Notation x_of k := (at_node (fd_vertex G) k).
Lemma fgrad_any i vr : 0 <= i < zlen (fd_cellid G) -> normal_of_nodes dim G i ->
  side (fd_vertex G) (nthZ [] (fd_nodes G) i) (fst (face_other dim G i)) <> side (fd_vertex G) (nthZ [] (fd_nodes G) i) (face_left G i) ->
  exists g, fgrad dim G W w_node i vr = Some g /\ gradient dim g /\
    (forall a b, In a (nthZ [] (fd_nodes G) i) -> In b (nthZ [] (fd_nodes G) i) -> vdot g (vsub (x_of b) (x_of a)) = (nthZ 0 w_node b - nthZ 0 w_node a)%R) /\
    vdot g (vsub (fst (face_other dim G i)) (face_left G i)) = (vr - left_value G W i)%R.
Proof.
  intros Hi HN HS. destruct (wfa_face _ _ WF i Hi) as (_ & _ & R3 & R4 & _).
  unfold fgrad, dia, normal_of_nodes, wnode, xnode in *. set (v1 := face_left G i) in *. set (v2 := fst (face_other dim G i)) in *. set (vl := left_value G W i).
  destruct (wfa_dim _ _ WF) as [Ed|Ed].
  - replace (dim =? 2) with true by lia. cbv zeta. destruct (nthZ [] (fd_nodes G) i) as [|k1 [|k2 [|]]] eqn:EF; try (rewrite !zlen_cons in R3; pose proof (zlen_nonneg l); lia); try (unfold zlen in R3; cbn in R3; lia).
    change (nthZ 0 [k1; k2] 0) with k1. change (nthZ 0 [k1; k2] 1) with k2. set (y1 := nthZ 0%R w_node k1). set (y2 := nthZ 0%R w_node k2).
    unfold side in HS. cbn [map] in HS. set (a := x_of k1) in *. set (b := x_of k2) in *.
    unfold dia2. cbn [di_f1 di_f2 di_f3 di_f4 di_air]. set (air := (1/2 * _)%R).
    assert (HA : (2 * air)%R <> 0%R). { unfold air. intros E. apply HS. unfold turn. lra. }
    rewrite !odiv_some by exact HA. eexists. split; [reflexivity|]. split; [intros _; reflexivity|].
    assert (HE : forall (P Q Z1 Z2 : R), (2 * air * (P / (2 * air) * Q + Z1 / (2 * air) * Z2) = P * Q + Z1 * Z2)%R) by (intros; field; lra).
    assert (E1 : (vdot (P3 (1 / (2 * air) * ((y1 + vl) * py (disp 2 v1 a) + (vl + y2) * py (disp 2 b v1) + (y2 + vr) * py (disp 2 v2 b) + (vr + y1) * py (disp 2 a v2)))
               (-1 / (2 * air) * ((y1 + vl) * px (disp 2 v1 a) + (vl + y2) * px (disp 2 b v1) + (y2 + vr) * px (disp 2 v2 b) + (vr + y1) * px (disp 2 a v2))) 0) (vsub b a) = y2 - y1)%R).
    { apply (Rmult_eq_reg_l (2 * air)%R); [|exact HA]. unfold vdot, vsub, disp. cbn [px py pz]. rewrite Rmult_0_l, Rplus_0_r.
      match goal with |- (2 * air * (1 / (2 * air) * ?A * ?B + -1 / (2 * air) * ?C * ?D))%R = _ => replace (2 * air * (1 / (2 * air) * A * B + -1 / (2 * air) * C * D))%R with (A * B - C * D)%R by (field; lra) end. unfold air. field. }
    split.
    + intros x y [<-|[<-|[]]] [<-|[<-|[]]]; fold a b y1 y2; try exact E1.
      * rewrite Rminus_eq_0. unfold vdot, vsub. cbn [px py pz]. ring.
      * replace (y1 - y2)%R with (- (y2 - y1))%R by ring. rewrite <- E1. unfold vdot, vsub. cbn [px py pz]. ring.
      * rewrite Rminus_eq_0. unfold vdot, vsub. cbn [px py pz]. ring.
    + apply (Rmult_eq_reg_l (2 * air)%R); [|exact HA]. unfold vdot, vsub, disp. cbn [px py pz]. rewrite Rmult_0_l, Rplus_0_r.
      match goal with |- (2 * air * (1 / (2 * air) * ?A * ?B + -1 / (2 * air) * ?C * ?D))%R = _ => replace (2 * air * (1 / (2 * air) * A * B + -1 / (2 * air) * C * D))%R with (A * B - C * D)%R by (field; lra) end. unfold air. field.
  - replace (dim =? 2) with false by lia. cbv zeta. specialize (HN Ed). destruct (nthZ [] (fd_nodes G) i) as [|k1 [|k2 [|k3 [|]]]] eqn:EF; try contradiction.
    change (nthZ 0 [k1; k2; k3] 0) with k1. change (nthZ 0 [k1; k2; k3] 1) with k2. change (nthZ 0 [k1; k2; k3] 2) with k3.
    unfold side in HS. cbn [map] in HS, HN. set (y1 := nthZ 0%R w_node k1). set (y2 := nthZ 0%R w_node k2). set (y3 := nthZ 0%R w_node k3).
    set (a := x_of k1) in *. set (b := x_of k2) in *. set (d := x_of k3) in *. set (n := nthZ vzero (fd_normal G) i) in *.
    set (D3 := dia3 a b d v1 v2 n). assert (EA : di_air D3 = pdot n (psub v2 v1)) by reflexivity. assert (HA : di_air D3 <> 0%R).
    { rewrite EA. intros E. apply HS. replace (pdot n (psub v2 v1)) with (vdot n (vsub v2 v1)) in E by reflexivity. rewrite (HN (vsub v2 v1)) in E. unfold det4. unfold det, vsub in *. cbn [px py pz] in *. lra. }
    rewrite !odiv_some by exact HA. eexists. split; [reflexivity|]. split; [intros E; lia|].
    pose proof (HN (P3 1 0 0)) as N1. pose proof (HN (P3 0 1 0)) as N2. pose proof (HN (P3 0 0 1)) as N3. clear HN.
    assert (VD : forall w, vdot (P3 ((px (di_f1 D3) * (y1 - y3) + px (di_f2 D3) * (y2 - y3) + px n * (vr - vl)) / di_air D3) ((py (di_f1 D3) * (y1 - y3) + py (di_f2 D3) * (y2 - y3) + py n * (vr - vl)) / di_air D3)
        ((pz (di_f1 D3) * (y1 - y3) + pz (di_f2 D3) * (y2 - y3) + pz n * (vr - vl)) / di_air D3)) w = ((vdot (di_f1 D3) w * (y1 - y3) + vdot (di_f2 D3) w * (y2 - y3) + vdot n w * (vr - vl)) / di_air D3)%R).
    { intros w. unfold vdot. cbn [px py pz]. field. exact HA. }
    (* the dual basis *)
    assert (B : vdot (di_f1 D3) (vsub a d) = di_air D3 /\ vdot (di_f1 D3) (vsub b d) = 0%R /\ vdot (di_f1 D3) (vsub v2 v1) = 0%R /\ vdot (di_f2 D3) (vsub a d) = 0%R /\ vdot (di_f2 D3) (vsub b d) = di_air D3 /\ vdot (di_f2 D3) (vsub v2 v1) = 0%R /\ vdot n (vsub a d) = 0%R /\ vdot n (vsub b d) = 0%R /\ vdot n (vsub v2 v1) = di_air D3).
    { rewrite EA. unfold D3, dia3, vdot, pdot, psub, padd, pscal, pcross, vsub, det in *. cbn [di_f1 di_f2 px py pz] in *. clear -N1 N2 N3.
      destruct n as [n1 n2 n3], a as [a1 a2 a3], b as [b1 b2 b3], d as [d1 d2 d3], v1 as [u1 u2 u3], v2 as [w1 w2 w3]. cbn [px py pz] in *.
      match type of N1 with _ = ?t => assert (E1 : n1 = t) by lra end. match type of N2 with _ = ?t => assert (E2 : n2 = t) by lra end. match type of N3 with _ = ?t => assert (E3 : n3 = t) by lra end. clear N1 N2 N3. subst n1 n2 n3.
      repeat split; field. }
    destruct B as (B1 & B2 & B3 & B4 & B5 & B6 & B7 & B8 & B9). match goal with |- _ /\ vdot ?t _ = _ => set (g := t) in * end.
    assert (GA : vdot g (vsub a d) = (y1 - y3)%R) by (rewrite VD, B1, B4, B7; field; exact HA). assert (GB : vdot g (vsub b d) = (y2 - y3)%R) by (rewrite VD, B2, B5, B8; field; exact HA).
    split.
    + assert (DF : forall x y, vdot g (vsub x y) = (vdot g (vsub x d) - vdot g (vsub y d))%R) by (intros; unfold vdot, vsub; cbn [px py pz]; ring). assert (GD : vdot g (vsub d d) = 0%R) by (unfold vdot, vsub; cbn [px py pz]; ring).
      intros x y [<-|[<-|[<-|[]]]] [<-|[<-|[<-|[]]]]; fold a b d y1 y2 y3; rewrite DF, ?GA, ?GB, ?GD; ring.
    + rewrite VD, B3, B6, B9. field. exact HA.
Qed.
End Face6.
