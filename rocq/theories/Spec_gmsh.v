(** * Spec_gmsh: meshes as a file gives them, with tags on the facets of the boundary (C95). *)
From Coq Require Import Reals Permutation.
From Verif Require Import Py Model_conn Spec_conn Model_geom Spec_geom Model_domain Spec_domain Model_gmsh.
Open Scope Z_scope.

(** the facet with the nodes F is in the file, with tag t *)
Definition tagged (M : meshfile) (F : list Z) (t : Z) : Prop := exists i, 0 <= i < zlen (mf_facets M) /\ Permutation (nthZ [] (mf_facets M) i) F /\ nthZ 0 (mf_tags M) i = t.
(** node k lies on a facet with tag t *)
Definition on_side (M : meshfile) (k t : Z) : Prop := exists i, 0 <= i < zlen (mf_facets M) /\ In k (nthZ [] (mf_facets M) i) /\ nthZ 0 (mf_tags M) i = t.
(** in and out (1, 2) are the sides of direction 1, upper and bottom (3, 4) of direction 2, front and back (5, 6) of direction 3 *)
Definition direction (t : Z) : Z := (t + 1) / 2.
(** A facet that has a node on no side of a lower direction *)
Definition has_own_node (M : meshfile) (F : list Z) (t : Z) : Prop := exists k, In k F /\ forall t', on_side M k t' -> direction t <= direction t'.
(** The file describes a simplicial mesh ... *)
Record mesh_in_file (dim : Z) (M : meshfile) : Prop := {
  mi_mesh : wf_mesh dim (zlen (mf_points M)) (mf_cells M);
  mi_nonflat : forall c, iscell (mf_cells M) c -> nonflat dim (mf_points M) (cell (mf_cells M) c);
  mi_proper : proper dim (mf_points M) (mf_cells M) }.
(** ... the facets in the file, among them all the facets of the boundary, have tags 1 .. 2*dim, and opposite sides have no node in common *)
Record sides_in_file (dim : Z) (M : meshfile) : Prop := {
  si_tags : zlen (mf_tags M) = zlen (mf_facets M);
  si_facets : forall F, In F (mf_facets M) -> zlen F = dim /\ forall k, In k F -> 0 <= k < zlen (mf_points M);
  si_known : forall t, In t (mf_tags M) -> 1 <= t <= 2 * dim;
  si_opposite : forall k t t', on_side M k t -> on_side M k t' -> direction t = direction t' -> t = t' }.
Definition boundary_tagged (dim : Z) (M : meshfile) : Prop := forall c F, only_cell dim (mf_cells M) c F -> exists t, tagged M F t.
(** the label of a periodic side is its tag written twice *)
Definition label_of_side (px py pz : bool) (t : Z) : Z := if (if direction t =? 1 then px else if direction t =? 2 then py else pz) then 11 * t else t.
