(** * Properties_conn: C10-C14.  Vocabulary: [Spec_conn] (cell, iscell, facet_of, has_facet, conforming, local_facets). *)
From Verif Require Import Py Model_conn Spec_conn Proofs_conn1 Proofs_conn3.
From Coq Require Import Permutation Sorting.Sorted.

(** node -> cells and cell -> cells tables: content, order, padding with -1 and stored count *)
Theorem C10_node_cell_tables : forall dim nbnodes cells, wf_mesh dim nbnodes cells -> 0 < nbnodes -> 0 < zlen cells ->
  exists cellid cellnid m m',
    create_node_cellid cells (zlen cells) nbnodes dim = Ok (cellid, cellnid) /\
    zlen cellid = nbnodes /\ zlen cellnid = zlen cells /\
    (forall k, 0 <= k < nbnodes -> exists L,
       nthZ [] cellid k = L ++ repeat (-1) (Z.to_nat (m - zlen L)) ++ [zlen L] /\ zlen L <= m /\
       StronglySorted Z.lt L /\ forall c, In c L <-> iscell cells c /\ In k (cell cells c)) /\
    (forall c, iscell cells c -> exists L,
       nthZ [] cellnid c = L ++ repeat (-1) (Z.to_nat (m' - zlen L)) ++ [zlen L] /\ zlen L <= m' /\
       StronglySorted Z.lt L /\
       forall c', In c' L <-> iscell cells c' /\ c' <> c /\ exists k, In k (cell cells c) /\ In k (cell cells c')).
Proof. exact c10. Qed.
Print Assumptions C10_node_cell_tables.

Theorem C11_faces_are_the_facets : forall dim nbnodes cells, wf_mesh dim nbnodes cells ->
  exists c, build_faces dim cells = Ok c /\
  NoDup (cn_faces c) /\
  (forall F, In F (cn_faces c) <-> exists k, has_facet dim cells k F) /\
  zlen (cn_faceid c) = zlen cells /\
  forall k, iscell cells k -> exists fs, nthZ [] (cn_faceid c) k = fs /\ zlen fs = dim + 1 /\ NoDup fs /\
    (forall f, 0 <= f < zlen (cn_faces c) -> (In f fs <-> has_facet dim cells k (nthZ [] (cn_faces c) f))) /\
    forall j, 0 <= j < dim + 1 -> 0 <= nthZ 0 fs j < zlen (cn_faces c) /\
       Permutation (nthZ [] (cn_faces c) (nthZ 0 fs j)) (nthZ [] (local_facets dim (cell cells k)) j).
Proof. exact c11. Qed.
Print Assumptions C11_faces_are_the_facets.

Theorem C12_face_cells : forall dim nbnodes cells, wf_mesh dim nbnodes cells ->
  exists c, build_faces dim cells = Ok c /\ zlen (cn_cellid c) = zlen (cn_faces c) /\
  forall f, 0 <= f < zlen (cn_faces c) -> exists a b, nthZ [] (cn_cellid c) f = [a; b] /\
    has_facet dim cells a (nthZ [] (cn_faces c) f) /\
    (forall k, has_facet dim cells k (nthZ [] (cn_faces c) f) -> a <= k) /\
    (b = -1 <-> forall k, has_facet dim cells k (nthZ [] (cn_faces c) f) -> k = a) /\
    (b <> -1 -> a < b /\ has_facet dim cells b (nthZ [] (cn_faces c) f)) /\
    (conforming dim cells -> b <> -1 -> forall k, has_facet dim cells k (nthZ [] (cn_faces c) f) -> k = a \/ k = b).
Proof. exact c12. Qed.
Print Assumptions C12_face_cells.

Theorem C13_neighbours_by_face : forall dim nbnodes cells, wf_mesh dim nbnodes cells -> conforming dim cells ->
  exists c, build_faces dim cells = Ok c /\ zlen (cn_cellfid c) = zlen cells /\
  forall i, iscell cells i -> zlen (nthZ [] (cn_cellfid c) i) = dim + 1 /\ forall j, 0 <= j < dim + 1 ->
    exists f n, nthZ 0 (nthZ [] (cn_faceid c) i) j = f /\ nthZ 0 (nthZ [] (cn_cellfid c) i) j = n /\
      (n = -1 <-> forall k, has_facet dim cells k (nthZ [] (cn_faces c) f) -> k = i) /\
      (n <> -1 -> n <> i /\ has_facet dim cells n (nthZ [] (cn_faces c) f) /\
         exists j', 0 <= j' < dim + 1 /\ nthZ 0 (nthZ [] (cn_faceid c) n) j' = f /\ nthZ 0 (nthZ [] (cn_cellfid c) n) j' = i).
Proof. exact c13. Qed.
Print Assumptions C13_neighbours_by_face.

Theorem C14_opposite_nodes : forall dim nbnodes cells, wf_mesh dim nbnodes cells -> conforming dim cells ->
  exists c, build_faces dim cells = Ok c /\ zlen (cn_opp c) = zlen (cn_faces c) /\
  forall f, 0 <= f < zlen (cn_faces c) -> exists a b n m, nthZ [] (cn_cellid c) f = [a; b] /\ nthZ [] (cn_opp c) f = [n; m] /\
    (forall x, In x (cell cells a) /\ ~ In x (nthZ [] (cn_faces c) f) <-> x = n) /\
    (b = -1 -> m = -1) /\
    (b <> -1 -> forall x, In x (cell cells b) /\ ~ In x (nthZ [] (cn_faces c) f) <-> x = m).
Proof. exact c14. Qed.
Print Assumptions C14_opposite_nodes.

(** three triangles round node 1, and two tetrahedra sharing the face {1,2,3} *)
Definition tri3 := [[0; 1; 2]; [3; 2; 1]; [1; 4; 3]].
Definition tet2 := [[0; 1; 2; 3]; [3; 2; 4; 1]].
Lemma wf_by_rows dim n cells : dim = 2 \/ dim = 3 ->
  Forall (fun r => zlen r = dim + 1 /\ NoDup r /\ Forall (fun k => 0 <= k < n) r) cells -> wf_mesh dim n cells.
Proof.
  intros Hd H. split; [exact Hd|]. rewrite Forall_forall in H. intros r Hr. destruct (H r Hr) as (A & B & C).
  rewrite Forall_forall in C. auto.
Qed.
Example tri3_wf : wf_mesh 2 5 tri3.
Proof. apply wf_by_rows; [auto|]. repeat constructor; cbn; lia. Qed.
Example tet2_wf : wf_mesh 3 5 tet2.
Proof. apply wf_by_rows; [auto|]. repeat constructor; cbn; lia. Qed.
(** no node set of size 2 lies in all three triangles, so the mesh is conforming *)
Example tri3_conforming : conforming 2 tri3.
Proof.
  intros F a b c (Ha & HS & HL & HIa) (Hb & _ & _ & HIb) (Hc & _ & _ & HIc).
  unfold iscell in *. change (zlen tri3) with 3 in *.
  assert (D : a = b \/ b = c \/ a = c \/ (a <> b /\ b <> c /\ a <> c)) by lia. destruct D as [D|[D|[D|(D1 & D2 & D3)]]]; auto. exfalso.
  assert (K : incl F (cell tri3 0) /\ incl F (cell tri3 1) /\ incl F (cell tri3 2)).
  { assert (In 0 [a; b; c] /\ In 1 [a; b; c] /\ In 2 [a; b; c]) as (K0 & K1 & K2) by (cbn; lia). cbn in K0, K1, K2.
    repeat split; [destruct K0 as [<-|[<-|[<-|[]]]] | destruct K1 as [<-|[<-|[<-|[]]]] | destruct K2 as [<-|[<-|[<-|[]]]]]; assumption. }
  destruct K as (K0 & K1 & K2).
  assert (forall x, In x F -> x = 1).
  { intros x Hx. specialize (K0 x Hx). specialize (K1 x Hx). specialize (K2 x Hx). change (cell tri3 0) with [0; 1; 2] in K0. change (cell tri3 1) with [3; 2; 1] in K1. change (cell tri3 2) with [1; 4; 3] in K2. cbn in K0, K1, K2. lia. }
  destruct F as [|x [|y [|z F]]]; unfold zlen in HL; cbn in HL; try lia.
  pose proof (H x (or_introl eq_refl)). pose proof (H y (or_intror (or_introl eq_refl))).
  inversion HS as [|? ? _ HF]; subst. inversion HF; subst. lia.
Qed.
Example tri3_tables : build_faces 2 tri3 = Ok {|
  cn_faces := [[0; 1]; [0; 2]; [1; 2]; [1; 3]; [1; 4]; [2; 3]; [3; 4]];
  cn_faceid := [[0; 2; 1]; [5; 2; 3]; [4; 6; 3]];
  cn_cellid := [[0; -1]; [0; -1]; [0; 1]; [1; 2]; [2; -1]; [1; -1]; [2; -1]];
  cn_cellfid := [[-1; 1; -1]; [-1; 0; 2]; [-1; -1; 1]];
  cn_opp := [[2; -1]; [1; -1]; [0; 3]; [2; 4]; [3; -1]; [1; -1]; [1; -1]] |}.
Proof. vm_compute. reflexivity. Qed.
Example tet2_tables : exists c, build_faces 3 tet2 = Ok c /\ nthZ [] (cn_faces c) 3 = [1; 2; 3] /\ nthZ [] (cn_cellid c) 3 = [0; 1] /\ nthZ [] (cn_opp c) 3 = [0; 4].
Proof. eexists; split; [vm_compute; reflexivity|]. vm_compute. auto. Qed.
