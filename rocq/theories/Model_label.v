(** * Model_label: node labels, face labels, boundary categories.
    Models manapy/ddm/meshpartitioning.py:69-132, manapy/ddm/pyccel_ddm.py:27-47 and 78-127 (labels only),
    manapy/ddm/domain.py:458-513. *)
From Verif Require Import Py.

(** meshpartitioning.py:79-82, body for facet k and position index *)
Definition ghost_pass1 (facets : list (list Z)) (ghost : list Z) (k : Z) (gn : list Z) (index : Z) : res (list Z) :=
  do l <- get ghost k;
  if (l =? 1) || (l =? 2) then do n <- get2 facets k index; set gn n l else ret gn.
(** meshpartitioning.py:85-89 *)
Definition ghost_pass2 (facets : list (list Z)) (ghost : list Z) (k : Z) (gn : list Z) (index : Z) : res (list Z) :=
  do n <- get2 facets k index; do x <- get gn n;
  if negb (x =? 1) && negb (x =? 2) then
    do l <- get ghost k; if (l =? 3) || (l =? 4) then set gn n l else ret gn
  else ret gn.
(** meshpartitioning.py:94-97 *)
Definition ghost_pass3 (facets : list (list Z)) (ghost : list Z) (k : Z) (gn : list Z) (index : Z) : res (list Z) :=
  do n <- get2 facets k index; do x <- get gn n;
  if x =? 0 then do l <- get ghost k; set gn n l else ret gn.

Definition ghost_loop (pass : Z -> list Z -> Z -> res (list Z)) (dim nbfacets : Z) (gn : list Z) : res (list Z) :=
  foldM (fun gn k => foldM (pass k) (range dim) gn) (range nbfacets) gn.

(** meshpartitioning.py:111-130: for i in range(len(ghost_nodes)): a -> a', b -> b' *)
Definition relabel (a a' b b' : Z) (gn : list Z) : res (list Z) :=
  foldM (fun gn i => do x <- get gn i; do y <- (if x =? a then ret a' else if x =? b then ret b' else ret x); set gn i y)
        (range (zlen gn)) gn.

(** How meshio presents the mesh: the two branches on type(mesh.cells), meshpartitioning.py:72 and 99. *)
Inductive meshio_cells := CellsDict | CellsList.

(** meshpartitioning.py:69-132 define_ghost_node.  [facets]: the boundary facets (lines or triangles),
    [ghost]: their gmsh:physical numbers.  In the list branch the names k and index are read before any
    assignment: UnboundLocalError as soon as there is one facet (l.103). *)
Definition define_ghost_node (kind : meshio_cells) (dim nbnodes : Z) (facets : list (list Z)) (ghost : list Z)
    (px py pz : bool) : res (list Z) :=
  let gn := map (fun _ => 0) (range nbnodes) in
  do gn <- match kind with
           | CellsDict =>
               do gn <- ghost_loop (ghost_pass1 facets ghost) dim (zlen facets) gn;
               do gn <- ghost_loop (ghost_pass2 facets ghost) dim (zlen facets) gn;
               ghost_loop (ghost_pass3 facets ghost) dim (zlen facets) gn
           | CellsList => if (0 <? zlen facets) && (0 <? dim) then Err UnboundLocalError else ret gn
           end;
  do gn <- (if px then relabel 1 11 2 22 gn else ret gn);
  do gn <- (if py then relabel 3 33 4 44 gn else ret gn);
  if pz then relabel 5 55 6 66 gn else ret gn.

(** pyccel_ddm.py:29-47: label of a 2D face without second cell from its node labels *)
Definition name2 (a b : Z) : Z :=
  if a =? b then a
  else if ((a =? 3) && negb (b =? 0)) || (negb (a =? 0) && (b =? 3)) then 3
  else if ((a =? 4) && negb (b =? 0)) || (negb (a =? 0) && (b =? 4)) then 4
  else if ((a =? 33) && negb (b =? 0)) || (negb (a =? 0) && (b =? 33)) then 33
  else if ((a =? 44) && negb (b =? 0)) || (negb (a =? 0) && (b =? 44)) then 44
  else 100.

(** pyccel_ddm.py:83-123: the test repeated for 5, 6, 3, 4, 55, 66, 33, 44 *)
Definition one_is (v a b c : Z) : bool :=
  ((a =? v) && negb (b =? 0) && negb (c =? 0)) || (negb (a =? 0) && (b =? v) && negb (c =? 0))
  || (negb (a =? 0) && negb (b =? 0) && (c =? v)).
(** pyccel_ddm.py:79-127 *)
Definition name3 (a b c : Z) : Z :=
  if (a =? b) && (a =? c) then a
  else if one_is 5 a b c then 5 else if one_is 6 a b c then 6
  else if one_is 3 a b c then 3 else if one_is 4 a b c then 4
  else if one_is 55 a b c then 55 else if one_is 66 a b c then 66
  else if one_is 33 a b c then 33 else if one_is 44 a b c then 44
  else 100.

(** [where(name == v)[0]] *)
Definition where_eq (name : list Z) (v : Z) : list Z := filter (fun i => nthZ 0 name i =? v) (range (zlen name)).

(** domain.py:458-513: the face lists (node lists are built by the same formulas from nodes._name) *)
Record facelists := {
  fl_inner : list Z; fl_in : list Z; fl_out : list Z; fl_upper : list Z; fl_bottom : list Z;
  fl_pin : list Z; fl_pout : list Z; fl_pupper : list Z; fl_pbottom : list Z; fl_halo : list Z;
  fl_front : list Z; fl_back : list Z; fl_pfront : list Z; fl_pback : list Z;
  fl_boundary : list Z; fl_pboundary : list Z }.
Definition face_lists (dim : Z) (name : list Z) : facelists :=
  let w := where_eq name in
  let three := dim =? 3 in
  let b := w 1 ++ w 2 ++ w 4 ++ w 3 in
  let p := w 11 ++ w 22 ++ w 44 ++ w 33 in
  {| fl_inner := w 0; fl_in := w 1; fl_out := w 2; fl_upper := w 3; fl_bottom := w 4;
     fl_pin := w 11; fl_pout := w 22; fl_pupper := w 33; fl_pbottom := w 44; fl_halo := w 10;
     fl_front := if three then w 5 else []; fl_back := if three then w 6 else [];
     fl_pfront := if three then w 55 else []; fl_pback := if three then w 66 else [];
     fl_boundary := np_sort (if three then b ++ w 6 ++ w 5 else b);
     fl_pboundary := np_sort (if three then p ++ w 66 ++ w 55 else p) |}.
