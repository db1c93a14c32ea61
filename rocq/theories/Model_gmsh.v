(** * Model_gmsh: from the mesh file to the domains.
    Models manapy/ddm/meshpartitioning.py:45-163 (the part of readmesh before the partition), followed by the rest of readmesh and by Domain(dim) ([setup]).  meshio's parsing of the
    file is not modelled: the mesh is what meshio returns. *)
From Coq Require Import Reals.
From Verif Require Import Py Model_part Model_label Model_conn Model_geom Model_domain Model_parallel.
Open Scope Z_scope.

(** what meshio.read returns (l.52): mesh.points, the rows of the block of cells (triangles or tetrahedra), the rows of the block of boundary facets (lines or triangles) and their
    gmsh:physical numbers.  The two forms in which meshio presents them ([meshio_cells]) matter only in define_ghost_node. *)
Record meshfile := { mf_points : list pt; mf_cells : list (list Z); mf_facets : list (list Z); mf_tags : list Z }.
(** meshpartitioning.py:55-67 create_cell_nodeid: every row is sorted in place *)
Definition create_cell_nodeid (M : meshfile) : list (list Z) := map np_sort (mf_cells M).
(** meshpartitioning.py:71-132: the labels of the nodes; [px], [py], [pz]: periodic[0..2] == 1 *)
Definition labels_of_file (kind : meshio_cells) (dim : Z) (px py pz : bool) (M : meshfile) : res (list Z) :=
  define_ghost_node kind dim (zlen (mf_points M)) (mf_facets M) (mf_tags M) px py pz.
(** readmesh(filename, dim, periodic); domain = Domain(dim=dim).  l.143-148: nodes, cells, labels, in this order; [npart0], [epart]: what METIS answers *)
Definition setup_from_file (f32 : R -> R) (kind : meshio_cells) (dim SIZE : Z) (px py pz : bool) (M : meshfile) (npart0 epart : list Z) : res setting :=
  do labels <- labels_of_file kind dim px py pz M;
  setup f32 dim SIZE (create_cell_nodeid M) (mf_points M) labels npart0 epart.
