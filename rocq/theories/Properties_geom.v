(** * Properties_geom: C15, C17-C20, C23.
    Vocabulary: [Spec_conn] (wf_mesh, cell, iscell, has_facet) and [Spec_geom] (vectors, turn, det4, barycentre, nonflat, proper, face_label ...). *)
From Verif Require Import Py PyLemmas Model_part Model_conn Spec_conn Proofs_conn2 Model_geom Spec_geom Proofs_geom2 Proofs_geom3 Properties_conn.
From Coq Require Import Permutation Sorting.Sorted Lra.
Open Scope Z_scope.

(** a face with two cells has label 0; a face with one cell has the label determined by the labels of its nodes,
    whatever order the nodes are listed in *)
Theorem C15_face_labels : forall dim vertex namen nodeid, wf_mesh dim (zlen vertex) nodeid -> zlen namen = zlen vertex ->
  exists g, build_geometry dim nodeid vertex namen = Ok g /\ zlen (ge_faces g) = zlen (cn_faces (ge_conn g)) /\
  forall f, 0 <= f < zlen (cn_faces (ge_conn g)) ->
    let F := nthZ [] (cn_faces (ge_conn g)) f in let name := fg_name (nthZ fg0 (ge_faces g) f) in
    ((exists a b, a <> b /\ has_facet dim nodeid a F /\ has_facet dim nodeid b F) -> name = 0) /\
    ((forall a b, has_facet dim nodeid a F -> has_facet dim nodeid b F -> a = b) ->
       forall G, Permutation G F -> name = face_label (priority dim) (map (nthZ 0 namen) G)).
Proof. exact c15. Qed.
Print Assumptions C15_face_labels.

(** triangles: area, centroid, counter-clockwise renumbering keeping the first node; recomputing changes nothing *)
Theorem C17_triangle_geometry : forall vertex namen nodeid, wf_mesh 2 (zlen vertex) nodeid -> zlen namen = zlen vertex ->
  exists g, build_geometry 2 nodeid vertex namen = Ok g /\ zlen (ge_cells g) = zlen nodeid /\
  (forall i, iscell nodeid i -> forall s1 s2 s3, cell nodeid i = [s1; s2; s3] ->
     let a := at_node vertex s1 in let b := at_node vertex s2 in let c := at_node vertex s3 in
     exists cg t2 t3, nthZ (cg0 []) (ge_cells g) i = cg /\
       cg_volume cg = (Rabs (turn a b c) / 2)%R /\
       (nonflat 2 vertex (cell nodeid i) -> (0 < cg_volume cg)%R) /\
       (planar vertex -> cg_center cg = barycentre [a; b; c]) /\
       cg_nodes cg = [s1; t2; t3] /\ Permutation [t2; t3] [s2; s3] /\
       (turn a (at_node vertex t2) (at_node vertex t3) = 2 * cg_volume cg)%R) /\
  compute_cells 2 (map cg_nodes (ge_cells g)) vertex = Ok (ge_cells g).
Proof. exact c17. Qed.
Print Assumptions C17_triangle_geometry.

(** tetrahedra: volume and centroid, independent of the order in which the nodes are listed *)
Theorem C18_tetrahedron_geometry : forall vertex namen nodeid, wf_mesh 3 (zlen vertex) nodeid -> zlen namen = zlen vertex ->
  exists g, build_geometry 3 nodeid vertex namen = Ok g /\ zlen (ge_cells g) = zlen nodeid /\
  forall i, iscell nodeid i -> forall s1 s2 s3 s4, Permutation (cell nodeid i) [s1; s2; s3; s4] ->
     let a := at_node vertex s1 in let b := at_node vertex s2 in let c := at_node vertex s3 in let d := at_node vertex s4 in
     exists cg, nthZ (cg0 []) (ge_cells g) i = cg /\
       cg_volume cg = (Rabs (det4 a b c d) / 6)%R /\
       (nonflat 3 vertex (cell nodeid i) -> (0 < cg_volume cg)%R) /\
       cg_center cg = barycentre [a; b; c; d] /\ cg_nodes cg = cell nodeid i.
Proof. exact c18. Qed.
Print Assumptions C18_tetrahedron_geometry.

(** face normals: orthogonal to the face, as long as the face is large, out of the left cell, into the right one *)
Theorem C19_face_normals : forall dim vertex namen nodeid, wf_mesh dim (zlen vertex) nodeid -> zlen namen = zlen vertex ->
  exists g, build_geometry dim nodeid vertex namen = Ok g /\ zlen (ge_faces g) = zlen (cn_faces (ge_conn g)) /\
  forall f, 0 <= f < zlen (cn_faces (ge_conn g)) ->
    let F := nthZ [] (cn_faces (ge_conn g)) f in let fg := nthZ fg0 (ge_faces g) f in
    (forall x y, In x F -> In y F -> vdot (fg_normal fg) (vsub (at_node vertex x) (at_node vertex y)) = 0%R) /\
    fg_mesure fg = vlen (fg_normal fg) /\
    (dim = 3 \/ planar vertex -> fg_mesure fg = facet_measure vertex F) /\
    fg_center fg = barycentre (map (at_node vertex) F) /\
    exists a b, nthZ [] (cn_cellid (ge_conn g)) f = [a; b] /\
      let centre c := cg_center (nthZ (cg0 []) (ge_cells g) c) in
      (0 <= vdot (vsub (fg_center fg) (centre a)) (fg_normal fg))%R /\
      (nonflat dim vertex (cell nodeid a) -> (0 < vdot (vsub (fg_center fg) (centre a)) (fg_normal fg))%R) /\
      (proper dim vertex nodeid -> (forall k, iscell nodeid k -> nonflat dim vertex (cell nodeid k)) -> b <> -1 ->
         (0 < vdot (vsub (centre b) (fg_center fg)) (fg_normal fg))%R).
Proof. exact c19. Qed.
Print Assumptions C19_face_normals.

(** closed cells: the outgoing normals of a cell sum to zero *)
Theorem C20_closed_cells : forall dim vertex namen nodeid, wf_mesh dim (zlen vertex) nodeid -> zlen namen = zlen vertex ->
  proper dim vertex nodeid -> (forall k, iscell nodeid k -> nonflat dim vertex (cell nodeid k)) ->
  exists g, build_geometry dim nodeid vertex namen = Ok g /\
  forall c, iscell nodeid c ->
    vsum (map (fun f => let n := fg_normal (nthZ fg0 (ge_faces g) f) in
                        if c =? nthZ 0 (nthZ [] (cn_cellid (ge_conn g)) f) 0 then n else vscal (-1) n)
              (nthZ [] (cn_faceid (ge_conn g)) c)) = vzero.
Proof. exact c20. Qed.
Print Assumptions C20_closed_cells.
(** the per-cell table of outgoing normals of 2D domains *)
Theorem C20_closed_cells_nf : forall vertex namen nodeid, wf_mesh 2 (zlen vertex) nodeid -> zlen namen = zlen vertex ->
  exists g, build_geometry 2 nodeid vertex namen = Ok g /\ zlen (ge_nf g) = zlen nodeid /\
  forall c, iscell nodeid c -> nonflat 2 vertex (cell nodeid c) ->
    zlen (nthZ [] (ge_nf g) c) = 3 /\ vsum (nthZ [] (ge_nf g) c) = vzero /\
    forall j, 0 <= j < 3 ->
      let fg := nthZ fg0 (ge_faces g) (nthZ 0 (nthZ [] (cn_faceid (ge_conn g)) c) j) in
      let w := nthZ vzero (nthZ [] (ge_nf g) c) j in
      (w = fg_normal fg \/ w = vscal (-1) (fg_normal fg)) /\
      (0 < vdot (vsub (fg_center fg) (cg_center (nthZ (cg0 []) (ge_cells g) c))) w)%R.
Proof. exact c20_2d. Qed.
Print Assumptions C20_closed_cells_nf.

(** 3D: the nodes of a face are listed so that the right-hand normal is the stored one
    (for every w, normal . w = 1/2 det(b-a, c-a, w), that is normal = 1/2 (b-a) x (c-a)) *)
Theorem C23_oriented_face_nodes : forall vertex namen nodeid, wf_mesh 3 (zlen vertex) nodeid -> zlen namen = zlen vertex ->
  exists g, build_geometry 3 nodeid vertex namen = Ok g /\ zlen (ge_facenodes g) = zlen (cn_faces (ge_conn g)) /\
  forall f, 0 <= f < zlen (cn_faces (ge_conn g)) -> exists s1 s2 s3, nthZ [] (ge_facenodes g) f = [s1; s2; s3] /\
    Permutation [s1; s2; s3] (nthZ [] (cn_faces (ge_conn g)) f) /\ nthZ 0 (nthZ [] (cn_faces (ge_conn g)) f) 0 = s1 /\
    let a := at_node vertex s1 in let b := at_node vertex s2 in let c := at_node vertex s3 in
    forall w, vdot (fg_normal (nthZ fg0 (ge_faces g) f)) w = (/ 2 * det (vsub b a) (vsub c a) w)%R.
Proof. exact c23. Qed.
Print Assumptions C23_oriented_face_nodes.

(** ** Concrete meshes meeting the hypotheses *)
(** the unit square cut in two; the second triangle is listed clockwise *)
Definition sq_v := [P3 0 0 0; P3 1 0 0; P3 1 1 0; P3 0 1 0].
Definition sq := [[0; 1; 2]; [0; 3; 2]].
(** the reference tetrahedron and a second one on its slanted face *)
Definition tt_v := [P3 0 0 0; P3 1 0 0; P3 0 1 0; P3 0 0 1; P3 1 1 1].

Lemma two_cells dim c0 c1 F a b : has_facet dim [c0; c1] a F -> has_facet dim [c0; c1] b F -> a <> b ->
  zlen F = dim /\ StronglySorted Z.lt F /\ incl F c0 /\ incl F c1 /\ ((a = 0 /\ b = 1) \/ (a = 1 /\ b = 0)).
Proof.
  intros (Ha & HS & HL & HIa) (Hb & _ & _ & HIb) Hne. unfold iscell in *. change (zlen [c0; c1]) with 2 in *.
  assert (D : (a = 0 /\ b = 1) \/ (a = 1 /\ b = 0)) by lia.
  destruct D as [(-> & ->)|(-> & ->)]; (split; [exact HL|]; split; [exact HS|]); [change (incl F c0) in HIa; change (incl F c1) in HIb | change (incl F c1) in HIa; change (incl F c0) in HIb]; auto.
Qed.
Example sq_wf : wf_mesh 2 (zlen sq_v) sq.
Proof. apply wf_by_rows; [auto|]. repeat constructor; cbn; lia. Qed.
Example sq_planar : planar sq_v.
Proof. intros v Hv. cbn in Hv. repeat (destruct Hv as [<-|Hv]; [reflexivity|]). destruct Hv. Qed.
Example sq_nonflat : forall k, iscell sq k -> nonflat 2 sq_v (cell sq k).
Proof.
  intros k Hk. unfold iscell in Hk. change (zlen sq) with 2 in Hk. assert (D : k = 0 \/ k = 1) by lia. destruct D as [-> | ->].
  - change (2 = 2 /\ turn (P3 0 0 0) (P3 1 0 0) (P3 1 1 0) <> 0%R). split; [reflexivity|]. unfold turn; cbn [px py]. lra.
  - change (2 = 2 /\ turn (P3 0 0 0) (P3 0 1 0) (P3 1 1 0) <> 0%R). split; [reflexivity|]. unfold turn; cbn [px py]. lra.
Qed.
Example sq_proper : proper 2 sq_v sq.
Proof.
  intros F a b x y Ha Hb Hne Hx HxF Hy HyF. destruct (two_cells 2 _ _ F a b Ha Hb Hne) as (HL & HS & I0 & I1 & Hab).
  assert (F = [0; 2]) as ->.
  { destruct (list2 F HL) as (p & q & ->). inversion HS as [|? ? _ HF]; subst. inversion HF; subst.
    assert (forall z, In z [p; q] -> z = 0 \/ z = 2) by (intros z Hz; specialize (I0 z Hz); specialize (I1 z Hz); cbn in I0, I1; lia).
    pose proof (H p ltac:(cbn; auto)). pose proof (H q ltac:(cbn; auto)). f_equal; [lia|]. f_equal; lia. }
  assert ((x = 1 /\ y = 3) \/ (x = 3 /\ y = 1)) as [(-> & ->)|(-> & ->)].
  { destruct Hab as [(-> & ->)|(-> & ->)]; change (cell sq 0) with [0; 1; 2] in *; change (cell sq 1) with [0; 3; 2] in *; cbn in Hx, HxF, Hy, HyF; lia. }
  - change (turn (P3 0 0 0) (P3 1 1 0) (P3 1 0 0) * turn (P3 0 0 0) (P3 1 1 0) (P3 0 1 0) < 0)%R. unfold turn; cbn [px py]; lra.
  - change (turn (P3 0 0 0) (P3 1 1 0) (P3 0 1 0) * turn (P3 0 0 0) (P3 1 1 0) (P3 1 0 0) < 0)%R. unfold turn; cbn [px py]; lra.
Qed.
Example tt_wf : wf_mesh 3 (zlen tt_v) tet2.
Proof. exact tet2_wf. Qed.
Example tt_nonflat : forall k, iscell tet2 k -> nonflat 3 tt_v (cell tet2 k).
Proof.
  intros k Hk. unfold iscell in Hk. change (zlen tet2) with 2 in Hk. assert (D : k = 0 \/ k = 1) by lia. destruct D as [-> | ->].
  - change (3 = 3 /\ det4 (P3 0 0 0) (P3 1 0 0) (P3 0 1 0) (P3 0 0 1) <> 0%R). split; [reflexivity|]. unfold det4, det, vsub; cbn [px py pz]. lra.
  - change (3 = 3 /\ det4 (P3 0 0 1) (P3 0 1 0) (P3 1 1 1) (P3 1 0 0) <> 0%R). split; [reflexivity|]. unfold det4, det, vsub; cbn [px py pz]. lra.
Qed.
Example tt_proper : proper 3 tt_v tet2.
Proof.
  intros F a b x y Ha Hb Hne Hx HxF Hy HyF. destruct (two_cells 3 _ _ F a b Ha Hb Hne) as (HL & HS & I0 & I1 & Hab).
  assert (F = [1; 2; 3]) as ->.
  { destruct (list3 F HL) as (p & q & r & ->). inversion HS as [|? ? HS' HF]; subst. inversion HF; subst. inversion HS' as [|? ? _ HF']; subst. inversion HF'; subst.
    assert (forall z, In z [p; q; r] -> z = 1 \/ z = 2 \/ z = 3) by (intros z Hz; specialize (I0 z Hz); specialize (I1 z Hz); cbn in I0, I1; lia).
    pose proof (H p ltac:(cbn; auto)). pose proof (H q ltac:(cbn; auto)). pose proof (H r ltac:(cbn; auto)). f_equal; [lia|]. f_equal; [lia|]. f_equal; lia. }
  assert ((x = 0 /\ y = 4) \/ (x = 4 /\ y = 0)) as [(-> & ->)|(-> & ->)].
  { destruct Hab as [(-> & ->)|(-> & ->)]; change (cell tet2 0) with [0; 1; 2; 3] in *; change (cell tet2 1) with [3; 2; 4; 1] in *; cbn in Hx, HxF, Hy, HyF; lia. }
  - change (det4 (P3 1 0 0) (P3 0 1 0) (P3 0 0 1) (P3 0 0 0) * det4 (P3 1 0 0) (P3 0 1 0) (P3 0 0 1) (P3 1 1 1) < 0)%R. unfold det4, det, vsub; cbn [px py pz]; lra.
  - change (det4 (P3 1 0 0) (P3 0 1 0) (P3 0 0 1) (P3 1 1 1) * det4 (P3 1 0 0) (P3 0 1 0) (P3 0 0 1) (P3 0 0 0) < 0)%R. unfold det4, det, vsub; cbn [px py pz]; lra.
Qed.
(** the clockwise triangle of the square is turned round; both have area 1/2 *)
Example sq_volumes : exists g, build_geometry 2 sq sq_v [1; 2; 3; 4] = Ok g /\
  map cg_nodes (ge_cells g) = [[0; 1; 2]; [0; 2; 3]] /\ map cg_volume (ge_cells g) = [(1/2)%R; (1/2)%R].
Proof.
  destruct (c17 sq_v [1; 2; 3; 4] sq sq_wf eq_refl) as (g & E & HL & H & _). exists g. split; [exact E|].
  destruct (H 0 ltac:(unfold iscell; change (zlen sq) with 2; lia) 0 1 2 eq_refl) as (c0 & t2 & t3 & E0 & V0 & _ & _ & N0 & P0 & T0).
  destruct (H 1 ltac:(unfold iscell; change (zlen sq) with 2; lia) 0 3 2 eq_refl) as (c1 & u2 & u3 & E1 & V1 & _ & _ & N1 & P1 & T1).
  change (zlen sq) with 2 in HL. destruct (ge_cells g) as [|x [|y [|z l]]]; try discriminate HL; [|unfold zlen in HL; cbn [length] in HL; lia].
  change (nthZ (cg0 []) [x; y] 0) with x in E0. change (nthZ (cg0 []) [x; y] 1) with y in E1. subst x y. cbn [map].
  change (at_node sq_v 0) with (P3 0 0 0) in *. change (at_node sq_v 1) with (P3 1 0 0) in *. change (at_node sq_v 2) with (P3 1 1 0) in *. change (at_node sq_v 3) with (P3 0 1 0) in *.
  assert (A0 : cg_volume c0 = (1/2)%R) by (rewrite V0; unfold turn; cbn [px py]; rewrite Rabs_right by lra; lra).
  assert (A1 : cg_volume c1 = (1/2)%R) by (rewrite V1; unfold turn; cbn [px py]; rewrite Rabs_left by lra; lra).
  rewrite A0, A1. split; [|reflexivity]. rewrite N0, N1.
  apply Permutation_sym, Permutation_length_2_inv in P0. apply Permutation_sym, Permutation_length_2_inv in P1.
  destruct P0 as [P0|P0]; injection P0 as -> ->; [| exfalso; rewrite A0 in T0; change (at_node sq_v 1) with (P3 1 0 0) in T0; change (at_node sq_v 2) with (P3 1 1 0) in T0; unfold turn in T0; cbn [px py] in T0; lra].
  destruct P1 as [P1|P1]; injection P1 as -> ->; [exfalso; rewrite A1 in T1; change (at_node sq_v 3) with (P3 0 1 0) in T1; change (at_node sq_v 2) with (P3 1 1 0) in T1; unfold turn in T1; cbn [px py] in T1; lra |]. reflexivity.
Qed.
