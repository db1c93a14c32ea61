(** * Model_conn: connectivity tables of a mesh.
    Models manapy/ddm/numba_ddm.py:95-252, manapy/ddm/pyccel_ddm.py:210-257 and manapy/ddm/domain.py:383-408.
    Simplification: two or three element writes filling a whole row are written as one row write. *)
From Verif Require Import Py.

Definition zeros_like {A} (v : A) (n : Z) : list A := map (fun _ => v) (range n).

(** [max(l)] of an integer sequence; ValueError on an empty one *)
Definition py_max (l : list Z) : res Z := match l with [] => Err ValueError | x :: t => ret (fold_left Z.max t x) end.

(** numba_ddm.py:209-215: cells of each node, and their number *)
Definition node_cells_loop (nodeid : list (list Z)) (nbelements nbnodes dim : Z) : res (list (list Z) * list Z) :=
  foldM (fun s i =>
    foldM (fun '(tmp, longn) j =>
      do n <- get2 nodeid i j;
      do tmp <- append_at tmp n i;
      do c <- get longn n; do longn <- set longn n (c + 1);
      ret (tmp, longn)) (range (dim + 1)) s)
  (range nbelements) (zeros_like [] nbnodes, zeros_like 0 nbnodes).

(** numba_ddm.py:222-225, one candidate c for cell i *)
Definition cell_cells_step (i : Z) (s : list (list Z) * list Z) (c : Z) : res (list (list Z) * list Z) :=
  let '(tmp2, longc) := s in
  do r <- get tmp2 i;
  if negb (mem c r) && negb (c =? i) then
    do tmp2 <- append_at tmp2 i c; do l <- get longc i; do longc <- set longc i (l + 1); ret (tmp2, longc)
  else ret (tmp2, longc).
(** numba_ddm.py:217-226 *)
Definition cell_cells_loop (nodeid tmp : list (list Z)) (nbelements dim : Z) : res (list (list Z) * list Z) :=
  foldM (fun s i =>
    do s <- foldM (fun s j => do n <- get2 nodeid i j; do l <- get tmp n; foldM (cell_cells_step i) l s) (range (dim + 1)) s;
    let '(tmp2, longc) := s in
    do r <- get tmp2 i; do tmp2 <- set tmp2 i (np_sort r); ret (tmp2, longc))
  (range nbelements) (zeros_like [] nbelements, zeros_like 0 nbelements).

(** numba_ddm.py:228-237 and 239-249: a table padded with -1, the row length appended *)
Definition pad_table (tmp : list (list Z)) (long : list Z) (n : Z) : res (list (list Z)) :=
  do m <- py_max long;
  let t0 := zeros_like (zeros_like (-1) m) n in
  do t <- foldM (fun t i => do r <- get tmp i;
                            foldM (fun t j => do x <- get r j; set2 t i j x) (range (zlen r)) t) (range (zlen tmp)) t0;
  foldM (fun t i => do l <- get long i; append_at t i l) (range n) t.

(** numba_ddm.py:207-252 create_node_cellid *)
Definition create_node_cellid (nodeid : list (list Z)) (nbelements nbnodes dim : Z) : res (list (list Z) * list (list Z)) :=
  do (tmp, longn) <- node_cells_loop nodeid nbelements nbnodes dim;
  do (tmp2, longc) <- cell_cells_loop nodeid tmp nbelements dim;
  do cellid <- pad_table tmp longn nbnodes;
  do cellnid <- pad_table tmp2 longc nbelements;
  ret (cellid, cellnid).

(** pyccel_ddm.py:223-233 create_2dfaces *)
Definition create_2dfaces (nodeidc : list (list Z)) (nbelements : Z) (faces cellf : list (list Z)) : res (list (list Z) * list (list Z)) :=
  do (_, faces, cellf) <- foldM (fun '(k, faces, cellf) i =>
      do n0 <- get2 nodeidc i 0; do n1 <- get2 nodeidc i 1; do n2 <- get2 nodeidc i 2;
      do faces <- set faces k [n0; n1];
      do faces <- set faces (k + 1) [n1; n2];
      do faces <- set faces (k + 2) [n2; n0];
      do cellf <- set cellf i [k; k + 1; k + 2];
      ret (k + 3, faces, cellf)) (range nbelements) (0, faces, cellf);
  ret (faces, cellf).

(** pyccel_ddm.py:246-257 create_3dfaces *)
Definition create_3dfaces (nodeidc : list (list Z)) (nbelements : Z) (faces cellf : list (list Z)) : res (list (list Z) * list (list Z)) :=
  do (_, faces, cellf) <- foldM (fun '(k, faces, cellf) i =>
      do n0 <- get2 nodeidc i 0; do n1 <- get2 nodeidc i 1; do n2 <- get2 nodeidc i 2; do n3 <- get2 nodeidc i 3;
      do faces <- set faces k [n0; n1; n2];
      do faces <- set faces (k + 1) [n2; n3; n0];
      do faces <- set faces (k + 2) [n0; n1; n3];
      do faces <- set faces (k + 3) [n3; n1; n2];
      do cellf <- set cellf i [k; k + 1; k + 2; k + 3];
      ret (k + 4, faces, cellf)) (range nbelements) (0, faces, cellf);
  ret (faces, cellf).

(** numpy.unique(rows, axis=0, return_inverse=True): the distinct rows in lexicographic order, and for
    each input row its position among them *)
Fixpoint row_ltb (a b : list Z) : bool :=
  match a, b with
  | [], [] => false
  | [], _ :: _ => true
  | _ :: _, [] => false
  | x :: a', y :: b' => (x <? y) || ((x =? y) && row_ltb a' b')
  end.
Fixpoint row_eqb (a b : list Z) : bool :=
  match a, b with
  | [], [] => true
  | x :: a', y :: b' => (x =? y) && row_eqb a' b'
  | _, _ => false
  end.
Fixpoint ins_row (x : list Z) (l : list (list Z)) : list (list Z) :=
  match l with
  | [] => [x]
  | y :: t => if row_ltb x y then x :: y :: t else if row_eqb x y then y :: t else y :: ins_row x t
  end.
Fixpoint row_index (r : list Z) (l : list (list Z)) : Z :=
  match l with [] => 0 | y :: t => if row_eqb r y then 0 else 1 + row_index r t end.
Definition np_unique_rows (rows : list (list Z)) : list (list Z) * list Z :=
  let u := fold_right ins_row [] rows in (u, map (fun r => row_index r u) rows).

(** pyccel_ddm.py:237-242 create_cell_faceid *)
Definition create_cell_faceid (nbelements : Z) (oldTonew : list Z) (cellf faceid : list (list Z)) (dim : Z) : res (list (list Z)) :=
  foldM (fun faceid i => foldM (fun faceid j =>
      do k <- get2 cellf i j; do v <- get oldTonew k; set2 faceid i j v) (range (dim + 1)) faceid)
    (range nbelements) faceid.

(** pyccel_ddm.py:214-219, one face f of cell i *)
Definition cells_of_face_step (i : Z) (cellid : list (list Z)) (f : Z) : res (list (list Z)) :=
  do c0 <- get2 cellid f 0;
  do cellid <- (if c0 =? -1 then set2 cellid f 0 i else ret cellid);
  do c0 <- get2 cellid f 0;
  if negb (c0 =? i) then set2 cellid f 1 i else ret cellid.
(** pyccel_ddm.py:210-219 create_cellsOfFace *)
Definition create_cellsOfFace (faceid : list (list Z)) (nbelements : Z) (cellid : list (list Z)) (dim : Z) : res (list (list Z)) :=
  foldM (fun cellid i => foldM (fun cellid j => do f <- get2 faceid i j; cells_of_face_step i cellid f) (range (dim + 1)) cellid)
    (range nbelements) cellid.

(** numba_ddm.py:95-111 create_NeighborCellByFace *)
Definition create_NeighborCellByFace (faceid cellid : list (list Z)) (nbelements dim : Z) : res (list (list Z)) :=
  foldM (fun cellfid i => foldM (fun cellfid j =>
      do f <- get2 faceid i j;
      do c1 <- get2 cellid f 1;
      if negb (c1 =? -1) then
        do c0 <- get2 cellid f 0;
        if i =? c0 then append_at cellfid i c1 else append_at cellfid i c0
      else append_at cellfid i (-1)) (range (dim + 1)) cellfid)
    (range nbelements) (zeros_like [] nbelements).

(** numba_ddm.py:122-141 / 160-194: append node n of the cell to face f when it is not one of its nodes *)
Definition opp_step (nodeidf : list (list Z)) (opp : list (list Z)) (n f : Z) : res (list (list Z)) :=
  do r <- get nodeidf f; if negb (mem n r) then append_at opp f n else ret opp.
(** numba_ddm.py:114-149 create_2doppNodeOfFaces, 152-203 create_3doppNodeOfFaces: the unrolled tests run over
    the nodes n1.. (outer) and the faces f1.. (inner) of the cell; then -1 is appended to short rows *)
Definition create_oppNodeOfFaces (dim : Z) (nodeidc faceidc nodeidf : list (list Z)) (nbelements nbfaces : Z) : res (list (list Z)) :=
  do opp <- foldM (fun opp i =>
      do fs <- mapM (fun j => get2 faceidc i j) (range (dim + 1));
      do ns <- mapM (fun j => get2 nodeidc i j) (range (dim + 1));
      foldM (fun opp n => foldM (fun opp f => opp_step nodeidf opp n f) fs opp) ns opp)
    (range nbelements) (zeros_like [] nbfaces);
  foldM (fun opp i => do r <- get opp i; if zlen r <? 2 then append_at opp i (-1) else ret opp) (range nbfaces) opp.

Record conn := { cn_faces : list (list Z); cn_faceid : list (list Z); cn_cellid : list (list Z); cn_cellfid : list (list Z);
                 cn_opp : list (list Z) }.

(** domain.py:386-408 and 432-436: the face tables of a Domain from its cells *)
Definition build_faces (dim : Z) (nodeid : list (list Z)) : res conn :=
  let nbcells := zlen nodeid in
  let p_faces := zeros_like (zeros_like 0 dim) ((dim + 1) * nbcells) in
  let cellf := zeros_like (zeros_like 0 (dim + 1)) nbcells in
  do (p_faces, cellf) <- (if dim =? 2 then create_2dfaces nodeid nbcells p_faces cellf
                          else create_3dfaces nodeid nbcells p_faces cellf);
  let '(faces, oldTonew) := np_unique_rows (map np_sort p_faces) in
  let nbfaces := zlen faces in
  do faceid <- create_cell_faceid nbcells oldTonew cellf (zeros_like (zeros_like 0 (dim + 1)) nbcells) dim;
  do cellid <- create_cellsOfFace faceid nbcells (zeros_like [-1; -1] nbfaces) dim;
  do cellfid <- create_NeighborCellByFace faceid cellid nbcells dim;
  do opp <- create_oppNodeOfFaces dim nodeid faceid faces nbcells nbfaces;
  ret {| cn_faces := faces; cn_faceid := faceid; cn_cellid := cellid; cn_cellfid := cellfid; cn_opp := opp |}.
