(** * Properties_label: C09 (node labels), C16 (boundary categories).  Vocabulary: [Spec_label]. *)
From Verif Require Import Py Model_label Spec_label Proofs_label.

Theorem C09_node_label_precedence : forall dim n facets labels,
  (forall f, In f facets -> zlen f = dim /\ forall k, In k f -> 0 <= k < n) ->
  zlen labels = zlen facets ->
  forall perx pery perz, 0 <= n ->
  exists gn, define_ghost_node CellsDict dim n facets labels perx pery perz = Ok gn /\ zlen gn = n /\
    forall k, 0 <= k < n -> nthZ 0 gn k = periodic_label perx pery perz (precedence (touching facets labels k)).
Proof. exact c09. Qed.
Print Assumptions C09_node_label_precedence.

(** what the precedence rule says, in words of the property *)
Theorem C09_precedence_meaning : forall ls,
  ((exists l, In l ls /\ (l = 1 \/ l = 2)) ->
     exists before l after, ls = before ++ l :: after /\ precedence ls = l /\ (l = 1 \/ l = 2) /\
       forall x, In x after -> x <> 1 /\ x <> 2) /\
  ((forall l, In l ls -> l <> 1 /\ l <> 2) -> (exists l, In l ls /\ (l = 3 \/ l = 4)) ->
     exists before l after, ls = before ++ l :: after /\ precedence ls = l /\ (l = 3 \/ l = 4) /\
       forall x, In x after -> x <> 3 /\ x <> 4) /\
  ((forall l, In l ls -> l <> 1 /\ l <> 2 /\ l <> 3 /\ l <> 4 /\ l <> 0) -> precedence ls = hd 0 ls) /\
  precedence [] = 0.
Proof. exact precedence_meaning. Qed.
Print Assumptions C09_precedence_meaning.

(** When meshio returns the cells as a list (meshio >= 4), the function cannot be run at all. *)
Theorem C09_list_meshes_refuted : forall dim n facets labels perx pery perz,
  0 < dim -> facets <> [] -> define_ghost_node CellsList dim n facets labels perx pery perz = Err UnboundLocalError.
Proof. exact list_branch_fails. Qed.
Print Assumptions C09_list_meshes_refuted.

(** unit square cut in two triangles: nodes 0..3 counter-clockwise from the origin; bottom 4, out 2, upper 3, in 1 *)
Definition sq_facets := [[0; 1]; [1; 2]; [2; 3]; [3; 0]].
Definition sq_labels := [4; 2; 3; 1].
Example sq_meets_premises : (forall f, In f sq_facets -> zlen f = 2 /\ forall k, In k f -> 0 <= k < 4) /\
  define_ghost_node CellsDict 2 4 sq_facets sq_labels false false false = Ok [1; 2; 2; 1] /\
  define_ghost_node CellsDict 2 4 sq_facets sq_labels true false false = Ok [11; 22; 22; 11] /\
  define_ghost_node CellsDict 2 4 [[0; 1]; [1; 2]; [2; 3]; [3; 0]] [4; 3; 7; 0] false false false = Ok [4; 3; 3; 7].
Proof.
  split; [|split; [|split]; reflexivity]. intros f Hf.
  repeat (destruct Hf as [<-|Hf]; [split; [reflexivity|]; cbn; intuition lia|]). destruct Hf.
Qed.

(** A face is in no category or in exactly one, and it is in one exactly when its label is a known one. *)
Theorem C16_one_category_iff_label_known_partial : forall dim name i,
  (dim = 2 \/ dim = 3) -> 0 <= i < zlen name ->
  categories_of (face_lists dim name) i = if mem (nthZ 0 name i) (known_labels dim) then 1%nat else 0%nat.
Proof. exact c16. Qed.
Print Assumptions C16_one_category_iff_label_known_partial.

(** The boundary list is the sorted union of the categories in/out/upper/bottom (front/back in 3D), each face once. *)
Theorem C16_boundary_list_exact : forall dim name i,
  (dim = 2 \/ dim = 3) -> 0 <= i < zlen name ->
  count_occ Z.eq_dec (fl_boundary (face_lists dim name)) i
    = (if mem (nthZ 0 name i) (if Z.eqb dim 3 then [1; 2; 3; 4; 5; 6] else [1; 2; 3; 4]) then 1%nat else 0%nat) /\
  count_occ Z.eq_dec (fl_pboundary (face_lists dim name)) i
    = (if mem (nthZ 0 name i) (if Z.eqb dim 3 then [11; 22; 33; 44; 55; 66] else [11; 22; 33; 44]) then 1%nat else 0%nat).
Proof. exact c16_boundary. Qed.
Print Assumptions C16_boundary_list_exact.

(** The full property fails: on the unit square with two triangles the upper and bottom edges carry node labels
    {1,2}, get label 100 and are in no category. *)
Theorem C16_every_face_categorised_refuted :
  exists facets labels gn,
    define_ghost_node CellsDict 2 4 facets labels false false false = Ok gn /\
    In ([2; 3], 3) (combine facets labels) /\
    let name := [name2 (nthZ 0 gn 2) (nthZ 0 gn 3)] in
    categories_of (face_lists 2 name) 0 = 0%nat.
Proof. exists sq_facets, sq_labels, [1; 2; 2; 1]. cbn. auto 10. Qed.
Print Assumptions C16_every_face_categorised_refuted.
