(** * Model_linsys: assembly of the implicit diffusion (Poisson) system.
    Models manapy/ast/pyccel_functions.py:4-21, 868-1852 and the constructor of LinearSystem, manapy/ast/linearsystem.py:27-138.
    Floats are reals; a division by zero gives [None] (inf/nan in the compiled kernels), which propagates. *)
From Verif Require Import Py Model_part Model_label Model_conn Model_geom Model_interp Model_bc.
Open Scope Z_scope.

Definition oopp (a : option R) : option R := match a with Some x => Some (- x)%R | None => None end.
Definition omul (a b : option R) : option R := match a, b with Some x, Some y => Some (x * y)%R | _, _ => None end.
Definition odivo (a : option R) (b : R) : option R := match a with Some x => odiv x b | None => None end.

(** what the kernels read: the node tables and the interpolation constants (C24), the face tables and the diamond constants
    (param1 .. param4, C26), cells.volume, cells.loctoglob, halos.halosext, var.BCdirichlet *)
Record lsys := { sy_N : nodedata; sy_nv : list nodevar; sy_G : facedata; sy_D : list diamond; sy_vol : list R; sy_l2g : list Z;
  sy_hext : list (list Z); sy_bcd : list Z }.
(** matrixinnerfaces, domain.halofaces, var.dirichletfaces *)
Record sylists := { sl_inner : list Z; sl_halo : list Z; sl_dir : list Z }.

(** pyccel_functions.py:868-874 *)
Definition search_element (a : list Z) (target : Z) : Z := if mem target a then 1 else 0.

(** one entry of the three arrays irn_loc (row), jcn_loc (column), a_loc (value); the arrays have one length *)
Definition entry := (Z * Z * option R)%type.
(** cmpt and the arrays *)
Definition trip := (Z * list entry)%type.
(** irn_loc[cmpt] = r; jcn_loc[cmpt] = c; a_loc[cmpt] = v; cmpt = cmpt + 1 *)
Definition emit (t : trip) (r c : Z) (v : option R) : res trip := do b <- set (snd t) (fst t) (r, c, v); ret (fst t + 1, b).

(** the row(s) that get the contribution of a node value: (local cell, its global number) on the left, the same on the right for an inner face *)
Definition side_row := (Z * Z)%type.
(** pyccel_functions.py:915-925: value = alpha / volume[c_left] * parameters[cmptparam], then -1. * alpha / volume[c_right] * ... *)
Definition node_entry (S : lsys) (left : side_row) (right : option side_row) (param : option R) (col : Z) (a : option R) (t : trip) : res trip :=
  do vl <- get (sy_vol S) (fst left);
  do t <- emit t (snd left) col (omul (odivo a vl) param);
  match right with
  | None => ret t
  | Some r => do vr <- get (sy_vol S) (fst r); emit t (snd r) col (omul (odivo (oopp a) vr) param)
  end.

(** ** 2D *)
(** the arrays and the local array [center], which survives from one iteration to the next *)
Definition st2 := (trip * pt)%type.
(** pyccel_functions.py:907-1000 (inner faces, [per] true) / 1052-1101 (halo faces, no periodic neighbours, [per] false): node [nod] *)
Definition node2 (S : lsys) (left : side_row) (right : option side_row) (per : bool) (param : option R) (nod : Z) (s : st2) : res st2 :=
  let N := sy_N S in
  do old <- get (nd_old N) nod;
  if search_element (sy_bcd S) old =? 0 then
    do v <- get (nd_vertex N) nod; do nv <- get (sy_nv S) nod;
    let at_center c col s := do t <- node_entry S left right param col (alpha nv (disp 2 c v)) (fst s); ret (t, c) in
    do row <- get (nd_cellid N) nod;
    do s <- count_loop row (fun s c => do p <- get (nd_centerc N) c; do g <- get (sy_l2g S) c; at_center p g s) s;
    do gs <- get (nd_ghost N) nod;
    do s <- ghost_loop gs (fun s e => do g <- get (sy_l2g S) (g_cell e); at_center (g_pt e) g s) s;
    do hg <- get (nd_haloghost N) nod;
    do s <- ghost_loop hg (fun s e => do g <- get2 (sy_hext S) (g_cell e) 0; at_center (g_pt e) g s) s;
    do s <- (if per then
               do prow <- get (nd_periodic N) nod;
               count_loop prow (fun s c =>
                 do p <- get (nd_centerc N) c; do sh <- get (nd_shift N) c;
                 let ctr := if (old =? 11) || (old =? 22) then P3 (px p + px sh) (py p) (pz p) else snd s in
                 let ctr := if (old =? 33) || (old =? 44) then P3 (px p) (py p + py sh) (pz p) else ctr in
                 do g <- get (sy_l2g S) c; at_center ctr g s) s
             else ret s);
    do hrow <- get (nd_haloid N) nod;
    count_loop hrow (fun s h => do p <- get (nd_centerh N) h; do g <- get2 (sy_hext S) h 0; at_center p g s) s
  else ret s.
(** [for nod in nodeidf[i]: ...; cmptparam = next(cmptparam)]; parameters = [param4[i], param2[i]] *)
Definition nodes2 (S : lsys) (left : side_row) (right : option side_row) (per : bool) (next : Z -> Z) (d : diamond) (i : Z) (s : st2) : res st2 :=
  do nodes <- get (fd_nodes (sy_G S)) i;
  do r <- foldM (fun (sk : st2 * Z) nod => do p <- get [di_p4 d; di_p2 d] (snd sk); do s <- node2 S left right per p nod (fst sk); ret (s, next (snd sk))) nodes (s, 0);
  ret (fst r).
Definition emit2 (s : st2) (r c : Z) (v : option R) : res st2 := do t <- emit (fst s) r c v; ret (t, snd s).
(** pyccel_functions.py:891-1019; [cmptparam =+1] (l.1001) assigns 1 *)
Definition inner2 (S : lsys) (s : st2) (i : Z) : res st2 :=
  do c_left <- get2 (fd_cellid (sy_G S)) i 0; do c_leftglob <- get (sy_l2g S) c_left; do d <- get (sy_D S) i;
  do c_right <- get2 (fd_cellid (sy_G S)) i 1; do c_rightglob <- get (sy_l2g S) c_right;
  do vl <- get (sy_vol S) c_left; do vr <- get (sy_vol S) c_right;
  do s <- emit2 s c_leftglob c_leftglob (odivo (di_p1 d) vl);
  do s <- nodes2 S (c_left, c_leftglob) (Some (c_right, c_rightglob)) true (fun _ => 1) d i s;
  do s <- emit2 s c_leftglob c_rightglob (odivo (di_p3 d) vl);
  do s <- emit2 s c_rightglob c_leftglob (odivo (oopp (di_p1 d)) vr);
  emit2 s c_rightglob c_rightglob (odivo (oopp (di_p3 d)) vr).
(** pyccel_functions.py:1021-1102 *)
Definition halo2 (S : lsys) (s : st2) (i : Z) : res st2 :=
  do c_left <- get2 (fd_cellid (sy_G S)) i 0; do c_leftglob <- get (sy_l2g S) c_left; do d <- get (sy_D S) i;
  do h <- get (fd_halofid (sy_G S)) i; do c_rightglob <- get2 (sy_hext S) h 0;
  do vl <- get (sy_vol S) c_left;
  do s <- emit2 s c_leftglob c_leftglob (odivo (di_p1 d) vl);
  do s <- emit2 s c_leftglob c_rightglob (odivo (di_p3 d) vl);
  nodes2 S (c_left, c_leftglob) None false (fun k => k + 1) d i s.
(** pyccel_functions.py:1104-1122 *)
Definition dir2 (S : lsys) (s : st2) (i : Z) : res st2 :=
  do c_left <- get2 (fd_cellid (sy_G S)) i 0; do c_leftglob <- get (sy_l2g S) c_left; do d <- get (sy_D S) i;
  do vl <- get (sy_vol S) c_left;
  do s <- emit2 s c_leftglob c_leftglob (odivo (di_p1 d) vl);
  emit2 s c_leftglob c_leftglob (odivo (oopp (di_p3 d)) vl).
(** pyccel_functions.py:876-1122; [b] are the arrays on entry; [center = zeros(2)] *)
Definition get_triplet_2d (S : lsys) (L : sylists) (b : list entry) : res (list entry) :=
  do s <- foldM (inner2 S) (sl_inner L) ((0, b), p0);
  do s <- foldM (halo2 S) (sl_halo L) s;
  do s <- foldM (dir2 S) (sl_dir L) s;
  ret (snd (fst s)).

(** ** 3D *)
(** [center] is a view into one of the tables, so that writing to it changes the table (l.1323, 1346, 1369-1380, 1401, 1427) *)
Inductive cref := CCell (c : Z) | CHalo (h : Z) | CGhost (nod j : Z) | CHaloghost (nod j : Z).
Record st3 := { s3_t : trip; s3_centerc : list pt; s3_centerh : list pt; s3_ghost : list (list gentry); s3_haloghost : list (list gentry); s3_center : option cref }.
Definition with_t (s : st3) (t : trip) : st3 :=
  {| s3_t := t; s3_centerc := s3_centerc s; s3_centerh := s3_centerh s; s3_ghost := s3_ghost s; s3_haloghost := s3_haloghost s; s3_center := s3_center s |}.
Definition with_center (s : st3) (r : cref) : st3 :=
  {| s3_t := s3_t s; s3_centerc := s3_centerc s; s3_centerh := s3_centerh s; s3_ghost := s3_ghost s; s3_haloghost := s3_haloghost s; s3_center := Some r |}.
Definition deref (s : st3) : res pt :=
  match s3_center s with
  | None => Err UnboundLocalError
  | Some (CCell c) => get (s3_centerc s) c
  | Some (CHalo h) => get (s3_centerh s) h
  | Some (CGhost nod j) => do e <- get2 (s3_ghost s) nod j; ret (g_pt e)
  | Some (CHaloghost nod j) => do e <- get2 (s3_haloghost s) nod j; ret (g_pt e)
  end.
Definition set_pt (e : gentry) (p : pt) : gentry := {| g_pt := p; g_cell := g_cell e; g_name := g_name e; g_last := g_last e |}.
(** center[0:3] = p *)
Definition assign (s : st3) (p : pt) : res st3 :=
  match s3_center s with
  | None => Err UnboundLocalError
  | Some (CCell c) => do l <- set (s3_centerc s) c p;
      ret {| s3_t := s3_t s; s3_centerc := l; s3_centerh := s3_centerh s; s3_ghost := s3_ghost s; s3_haloghost := s3_haloghost s; s3_center := s3_center s |}
  | Some (CHalo h) => do l <- set (s3_centerh s) h p;
      ret {| s3_t := s3_t s; s3_centerc := s3_centerc s; s3_centerh := l; s3_ghost := s3_ghost s; s3_haloghost := s3_haloghost s; s3_center := s3_center s |}
  | Some (CGhost nod j) => do e <- get2 (s3_ghost s) nod j; do l <- set2 (s3_ghost s) nod j (set_pt e p);
      ret {| s3_t := s3_t s; s3_centerc := s3_centerc s; s3_centerh := s3_centerh s; s3_ghost := l; s3_haloghost := s3_haloghost s; s3_center := s3_center s |}
  | Some (CHaloghost nod j) => do e <- get2 (s3_haloghost s) nod j; do l <- set2 (s3_haloghost s) nod j (set_pt e p);
      ret {| s3_t := s3_t s; s3_centerc := s3_centerc s; s3_centerh := s3_centerh s; s3_ghost := s3_ghost s; s3_haloghost := l; s3_center := s3_center s |}
  end.
(** the value and the column once [center] is set *)
Definition at_center3 (S : lsys) (left : side_row) (right : option side_row) (param : option R) (v : pt) (nv : nodevar) (col : Z) (s : st3) : res st3 :=
  do c <- deref s; do t <- node_entry S left right param col (alpha nv (disp 3 c v)) (s3_t s); ret (with_t s t).
(** [for j in range(len(centergn[nod])): if centergn[nod][j][-1] != -1: ...] *)
Definition ghosts3 (tab : st3 -> list (list gentry)) (mk : Z -> cref) (col : gentry -> res Z) (k : Z -> st3 -> res st3) (nod : Z) (s : st3) : res st3 :=
  do row <- get (tab s) nod;
  foldM (fun s j => do e <- get2 (tab s) nod j;
    if g_last e =? -1 then ret s else do g <- col e; k g (with_center s (mk j))) (range (zlen row)) s.
(** pyccel_functions.py:1319-1442 ([per] true) / 1472-1534 ([per] false) *)
Definition node3 (S : lsys) (left : side_row) (right : option side_row) (per : bool) (param : option R) (nod : Z) (s : st3) : res st3 :=
  let N := sy_N S in
  do old <- get (nd_old N) nod;
  if search_element (sy_bcd S) old =? 0 then
    do v <- get (nd_vertex N) nod; do nv <- get (sy_nv S) nod;
    let k := at_center3 S left right param v nv in
    do row <- get (nd_cellid N) nod;
    do s <- count_loop row (fun s c => do g <- get (sy_l2g S) c; k g (with_center s (CCell c))) s;
    do hrow <- get (nd_haloid N) nod;
    do s <- count_loop hrow (fun s h => do g <- get2 (sy_hext S) h 0; k g (with_center s (CHalo h))) s;
    do s <- (if per then
               do prow <- get (nd_periodic N) nod;
               count_loop prow (fun s c =>
                 do p <- get (s3_centerc s) c; do sh <- get (nd_shift N) c;
                 do s <- (match axis_shift 3 old with Some f => assign s (f p sh) | None => ret s end);
                 do g <- get (sy_l2g S) c; k g s) s
             else ret s);
    do s <- ghosts3 s3_ghost (CGhost nod) (fun e => get (sy_l2g S) (g_cell e)) k nod s;
    ghosts3 s3_haloghost (CHaloghost nod) (fun e => get2 (sy_hext S) (g_cell e) 0) k nod s
  else ret s.
(** nodes = [n0, n1, n2, n2], parameters = [param1, param2, -param1, -param2] *)
Definition nodes3 (S : lsys) (left : side_row) (right : option side_row) (per : bool) (d : diamond) (i : Z) (s : st3) : res st3 :=
  do n0 <- get2 (fd_nodes (sy_G S)) i 0; do n1 <- get2 (fd_nodes (sy_G S)) i 1; do n2 <- get2 (fd_nodes (sy_G S)) i 2;
  do r <- foldM (fun (sk : st3 * Z) nod => do p <- get [di_p1 d; di_p2 d; oopp (di_p1 d); oopp (di_p2 d)] (snd sk);
                   do s <- node3 S left right per p nod (fst sk); ret (s, snd sk + 1)) [n0; n1; n2; n2] (s, 0);
  ret (fst r).
Definition emit3 (s : st3) (r c : Z) (v : option R) : res st3 := do t <- emit (s3_t s) r c v; ret (with_t s t).
(** pyccel_functions.py:1298-1461 *)
Definition inner3 (S : lsys) (s : st3) (i : Z) : res st3 :=
  do c_left <- get2 (fd_cellid (sy_G S)) i 0; do c_leftglob <- get (sy_l2g S) c_left; do d <- get (sy_D S) i;
  do c_right <- get2 (fd_cellid (sy_G S)) i 1; do c_rightglob <- get (sy_l2g S) c_right;
  do vl <- get (sy_vol S) c_left; do vr <- get (sy_vol S) c_right;
  do s <- emit3 s c_leftglob c_leftglob (odivo (oopp (di_p3 d)) vl);
  do s <- nodes3 S (c_left, c_leftglob) (Some (c_right, c_rightglob)) true d i s;
  do s <- emit3 s c_leftglob c_rightglob (odivo (di_p3 d) vl);
  do s <- emit3 s c_rightglob c_leftglob (odivo (di_p3 d) vr);
  emit3 s c_rightglob c_rightglob (odivo (oopp (di_p3 d)) vr).
(** pyccel_functions.py:1463-1546 *)
Definition halo3 (S : lsys) (s : st3) (i : Z) : res st3 :=
  do c_left <- get2 (fd_cellid (sy_G S)) i 0; do c_leftglob <- get (sy_l2g S) c_left; do d <- get (sy_D S) i;
  do h <- get (fd_halofid (sy_G S)) i; do c_rightglob <- get2 (sy_hext S) h 0;
  do vl <- get (sy_vol S) c_left;
  do s <- nodes3 S (c_left, c_leftglob) None false d i s;
  do s <- emit3 s c_leftglob c_leftglob (odivo (oopp (di_p3 d)) vl);
  emit3 s c_leftglob c_rightglob (odivo (di_p3 d) vl).
(** pyccel_functions.py:1548-1565 *)
Definition dir3 (S : lsys) (s : st3) (i : Z) : res st3 :=
  do c_left <- get2 (fd_cellid (sy_G S)) i 0; do c_leftglob <- get (sy_l2g S) c_left; do d <- get (sy_D S) i;
  do vl <- get (sy_vol S) c_left;
  do s <- emit3 s c_leftglob c_leftglob (odivo (oopp (di_p3 d)) vl);
  emit3 s c_leftglob c_leftglob (odivo (oopp (di_p3 d)) vl).
(** pyccel_functions.py:1283-1565.  The second component is the table cells.center after the call. *)
Definition get_triplet_3d (S : lsys) (L : sylists) (b : list entry) : res (list entry * list pt) :=
  let N := sy_N S in
  do s <- foldM (inner3 S) (sl_inner L)
            {| s3_t := (0, b); s3_centerc := nd_centerc N; s3_centerh := nd_centerh N; s3_ghost := nd_ghost N; s3_haloghost := nd_haloghost N; s3_center := None |};
  do s <- foldM (halo3 S) (sl_halo L) s;
  do s <- foldM (dir3 S) (sl_dir L) s;
  ret (snd (s3_t s), s3_centerc s).

(** ** sizes *)
(** [for j in range(row[-1]): cmpt = cmpt + step] *)
Definition count_rows (row : list Z) (step cmpt : Z) : res Z := do n <- get row (-1); foldM (fun k _ => ret (k + step)) (range n) cmpt.
(** [for j in range(len(rows)): if rows[j][-1] != -1: cmpt = cmpt + step] *)
Definition count_ghosts (rows : list gentry) (step cmpt : Z) : res Z := foldM (fun k e => ret (if g_last e =? -1 then k else k + step)) rows cmpt.
(** pyccel_functions.py:1132-1161 / 1179-1193 and 1215-1245 / 1261-1275: one node *)
Definition node_size (S : lsys) (step : Z) (per : bool) (cmpt nod : Z) : res Z :=
  let N := sy_N S in
  do old <- get (nd_old N) nod;
  if search_element (sy_bcd S) old =? 0 then
    do row <- get (nd_cellid N) nod; do k <- count_rows row step cmpt;
    do gs <- get (nd_ghost N) nod; do k <- count_ghosts gs step k;
    do hg <- get (nd_haloghost N) nod; do k <- count_ghosts hg step k;
    do k <- (if per then do prow <- get (nd_periodic N) nod; count_rows prow step k else ret k);
    do hrow <- get (nd_haloid N) nod; count_rows hrow step k
  else ret cmpt.
(** pyccel_functions.py:1124-1199 *)
Definition compute_2dmatrix_size (S : lsys) (L : sylists) : res Z :=
  do k <- foldM (fun k i => do nodes <- get (fd_nodes (sy_G S)) i; do k <- foldM (node_size S 2 true) nodes (k + 1); ret (k + 1 + 1 + 1)) (sl_inner L) 0;
  do k <- foldM (fun k i => do nodes <- get (fd_nodes (sy_G S)) i; foldM (node_size S 1 false) nodes (k + 1 + 1 + 1)) (sl_halo L) k;
  foldM (fun k _ => ret (k + 1 + 1)) (sl_dir L) k.
(** pyccel_functions.py:1201-1281 *)
Definition compute_3dmatrix_size (S : lsys) (L : sylists) : res Z :=
  let nodes i := do n0 <- get2 (fd_nodes (sy_G S)) i 0; do n1 <- get2 (fd_nodes (sy_G S)) i 1; do n2 <- get2 (fd_nodes (sy_G S)) i 2; ret [n0; n1; n2; n2] in
  do k <- foldM (fun k i => do ns <- nodes i; do k <- foldM (node_size S 2 true) ns (k + 1); ret (k + 1 + 1 + 1)) (sl_inner L) 0;
  do k <- foldM (fun k i => do ns <- nodes i; foldM (node_size S 1 false) ns (k + 1 + 1)) (sl_halo L) k;
  foldM (fun k _ => ret (k + 1 + 1)) (sl_dir L) k.
Definition matrix_size (dim : Z) (S : lsys) (L : sylists) : res Z := if dim =? 2 then compute_2dmatrix_size S L else compute_3dmatrix_size S L.

(** linearsystem.py:77-79: np.zeros(dataSize), three times *)
Definition e0 : entry := (0, 0, Some 0%R).
(** linearsystem.py:63-79, 226-246 *)
Definition assembly (dim : Z) (S : lsys) (L : sylists) : res (list entry) :=
  do n <- matrix_size dim S L;
  let b := repeat e0 (Z.to_nat n) in
  if dim =? 2 then get_triplet_2d S L b else do r <- get_triplet_3d S L b; ret (fst r).

(** ** right-hand side *)
(** [a[i] += v] *)
Definition oadd_at (a : list (option R)) (i : Z) (v : option R) : res (list (option R)) := do x <- get a i; set a i (oadd x v).
(** domain.Pbordnode, domain.Pbordface *)
Record bord := { pb_node : list R; pb_face : list R }.
(** -1. * V * param / volume and V * param / volume *)
Definition rhs_left (V : R) (p : option R) (vol : R) : option R := odivo (omul (Some (-1 * V)%R) p) vol.
Definition rhs_right (V : R) (p : option R) (vol : R) : option R := odivo (omul (Some V) p) vol.
(** -2. * param3 / volume * V_K *)
Definition rhs_face (p : option R) (vol V : R) : option R := omul (odivo (omul (Some (-2)%R) p) vol) (Some V).

(** pyccel_functions.py:1568-1626 *)
Definition get_rhs_loc_2d (S : lsys) (L : sylists) (B : bord) (rhs : list (option R)) : res (list (option R)) :=
  let N := sy_N S in let G := sy_G S in
  do rhs <- foldM (fun rhs i =>
    do c_right <- get2 (fd_cellid G) i 1; do c_left <- get2 (fd_cellid G) i 0;
    do i_1 <- get2 (fd_nodes G) i 0; do i_2 <- get2 (fd_nodes G) i 1;
    do d <- get (sy_D S) i; do vl <- get (sy_vol S) c_left; do vr <- get (sy_vol S) c_right;
    do o1 <- get (nd_old N) i_1; do o2 <- get (nd_old N) i_2;
    do rhs <- (if search_element (sy_bcd S) o1 =? 1 then
                 do V <- get (pb_node B) i_1; do rhs <- oadd_at rhs c_left (rhs_left V (di_p4 d) vl); oadd_at rhs c_right (rhs_right V (di_p4 d) vr)
               else ret rhs);
    if search_element (sy_bcd S) o2 =? 1 then
      do V <- get (pb_node B) i_2; do rhs <- oadd_at rhs c_left (rhs_left V (di_p2 d) vl); oadd_at rhs c_right (rhs_right V (di_p2 d) vr)
    else ret rhs) (sl_inner L) rhs;
  do rhs <- foldM (fun rhs i =>
    do c_left <- get2 (fd_cellid G) i 0; do i_1 <- get2 (fd_nodes G) i 0; do i_2 <- get2 (fd_nodes G) i 1;
    do d <- get (sy_D S) i; do vl <- get (sy_vol S) c_left;
    do o1 <- get (nd_old N) i_1; do o2 <- get (nd_old N) i_2;
    do rhs <- (if search_element (sy_bcd S) o1 =? 1 then do V <- get (pb_node B) i_1; oadd_at rhs c_left (rhs_left V (di_p4 d) vl) else ret rhs);
    if search_element (sy_bcd S) o2 =? 1 then do V <- get (pb_node B) i_2; oadd_at rhs c_left (rhs_left V (di_p2 d) vl) else ret rhs) (sl_halo L) rhs;
  foldM (fun rhs i =>
    do c_left <- get2 (fd_cellid G) i 0; do i_1 <- get2 (fd_nodes G) i 0; do i_2 <- get2 (fd_nodes G) i 1;
    do d <- get (sy_D S) i; do vl <- get (sy_vol S) c_left;
    do g1 <- get2 (nd_ghost N) i_1 0; do g2 <- get2 (nd_ghost N) i_2 0;
    do rhs <- (if g_cell g1 =? -1 then ret rhs else do V <- get (pb_node B) i_1; oadd_at rhs c_left (rhs_left V (di_p4 d) vl));
    do rhs <- (if g_cell g2 =? -1 then ret rhs else do V <- get (pb_node B) i_2; oadd_at rhs c_left (rhs_left V (di_p2 d) vl));
    do V <- get (pb_face B) i; oadd_at rhs c_left (rhs_face (di_p3 d) vl V)) (sl_dir L) rhs.

(** pyccel_functions.py:1628-1700 *)
Definition get_rhs_glob_2d (S : lsys) (L : sylists) (B : bord) (rhs : list (option R)) : res (list (option R)) :=
  let N := sy_N S in let G := sy_G S in
  do rhs <- foldM (fun rhs i =>
    do c_left <- get2 (fd_cellid G) i 0; do c_leftglob <- get (sy_l2g S) c_left;
    do i_1 <- get2 (fd_nodes G) i 0; do i_2 <- get2 (fd_nodes G) i 1;
    do c_right <- get2 (fd_cellid G) i 1; do c_rightglob <- get (sy_l2g S) c_right;
    do d <- get (sy_D S) i; do vl <- get (sy_vol S) c_left; do vr <- get (sy_vol S) c_right;
    do o1 <- get (nd_old N) i_1; do o2 <- get (nd_old N) i_2;
    do rhs <- (if search_element (sy_bcd S) o1 =? 1 then
                 do V <- get (pb_node B) i_1; do rhs <- oadd_at rhs c_leftglob (rhs_left V (di_p4 d) vl); oadd_at rhs c_rightglob (rhs_right V (di_p4 d) vr)
               else ret rhs);
    if search_element (sy_bcd S) o2 =? 1 then
      do V <- get (pb_node B) i_2; do rhs <- oadd_at rhs c_leftglob (rhs_left V (di_p2 d) vl); oadd_at rhs c_rightglob (rhs_right V (di_p2 d) vr)
    else ret rhs) (sl_inner L) rhs;
  do rhs <- foldM (fun rhs i =>
    do c_left <- get2 (fd_cellid G) i 0; do c_leftglob <- get (sy_l2g S) c_left; do i_1 <- get2 (fd_nodes G) i 0; do i_2 <- get2 (fd_nodes G) i 1;
    do d <- get (sy_D S) i; do vl <- get (sy_vol S) c_left;
    do o1 <- get (nd_old N) i_1; do o2 <- get (nd_old N) i_2;
    do rhs <- (if search_element (sy_bcd S) o1 =? 1 then do V <- get (pb_node B) i_1; oadd_at rhs c_leftglob (rhs_left V (di_p4 d) vl) else ret rhs);
    if search_element (sy_bcd S) o2 =? 1 then do V <- get (pb_node B) i_2; oadd_at rhs c_leftglob (rhs_left V (di_p2 d) vl) else ret rhs) (sl_halo L) rhs;
  foldM (fun rhs i =>
    do c_left <- get2 (fd_cellid G) i 0; do c_leftglob <- get (sy_l2g S) c_left; do i_1 <- get2 (fd_nodes G) i 0; do i_2 <- get2 (fd_nodes G) i 1;
    do d <- get (sy_D S) i; do vl <- get (sy_vol S) c_left;
    do g1 <- get2 (nd_ghost N) i_1 0; do g2 <- get2 (nd_ghost N) i_2 0;
    do rhs <- (if g_cell g1 =? -1 then ret rhs else do V <- get (pb_node B) i_1; oadd_at rhs c_leftglob (rhs_left V (di_p4 d) vl));
    do rhs <- (if g_cell g2 =? -1 then ret rhs else do V <- get (pb_node B) i_2; oadd_at rhs c_leftglob (rhs_left V (di_p2 d) vl));
    do V <- get (pb_face B) i; oadd_at rhs c_leftglob (rhs_face (di_p3 d) vl V)) (sl_dir L) rhs.

(** the loop [cmpt = 0; for nod in nodes: ...; cmpt += 1] of the 3D functions *)
Definition over_nodes3 (S : lsys) (d : diamond) (i : Z) (f : list (option R) -> option R -> Z -> res (list (option R))) (rhs : list (option R)) : res (list (option R)) :=
  do n0 <- get2 (fd_nodes (sy_G S)) i 0; do n1 <- get2 (fd_nodes (sy_G S)) i 1; do n2 <- get2 (fd_nodes (sy_G S)) i 2;
  do r <- foldM (fun (rk : list (option R) * Z) nod => do p <- get [di_p1 d; di_p2 d; oopp (di_p1 d); oopp (di_p2 d)] (snd rk);
                   do rhs <- f (fst rk) p nod; ret (rhs, snd rk + 1)) [n0; n1; n2; n2] (rhs, 0);
  ret (fst r).
(** pyccel_functions.py:1702-1774 *)
Definition get_rhs_loc_3d (S : lsys) (L : sylists) (B : bord) (rhs : list (option R)) : res (list (option R)) :=
  let N := sy_N S in let G := sy_G S in
  do rhs <- foldM (fun rhs i =>
    do c_left <- get2 (fd_cellid G) i 0; do c_right <- get2 (fd_cellid G) i 1; do d <- get (sy_D S) i; do vl <- get (sy_vol S) c_left; do vr <- get (sy_vol S) c_right;
    over_nodes3 S d i (fun rhs p nod => do o <- get (nd_old N) nod;
      if search_element (sy_bcd S) o =? 1 then
        do V <- get (pb_node B) nod; do rhs <- oadd_at rhs c_left (rhs_left V p vl); oadd_at rhs c_right (rhs_right V p vr)
      else ret rhs) rhs) (sl_inner L) rhs;
  do rhs <- foldM (fun rhs i =>
    do c_left <- get2 (fd_cellid G) i 0; do d <- get (sy_D S) i; do vl <- get (sy_vol S) c_left;
    over_nodes3 S d i (fun rhs p nod => do o <- get (nd_old N) nod;
      if search_element (sy_bcd S) o =? 1 then do V <- get (pb_node B) nod; oadd_at rhs c_left (rhs_left V p vl) else ret rhs) rhs) (sl_halo L) rhs;
  foldM (fun rhs i =>
    do c_left <- get2 (fd_cellid G) i 0; do d <- get (sy_D S) i; do vl <- get (sy_vol S) c_left;
    do rhs <- over_nodes3 S d i (fun rhs p nod => do g <- get2 (nd_ghost N) nod 0;
      if g_cell g =? -1 then ret rhs else do V <- get (pb_node B) nod; oadd_at rhs c_left (rhs_left V p vl)) rhs;
    do V <- get (pb_face B) i; oadd_at rhs c_left (rhs_face (di_p3 d) vl V)) (sl_dir L) rhs.
(** pyccel_functions.py:1776-1852 *)
Definition get_rhs_glob_3d (S : lsys) (L : sylists) (B : bord) (rhs : list (option R)) : res (list (option R)) :=
  let N := sy_N S in let G := sy_G S in
  do rhs <- foldM (fun rhs i =>
    do c_left <- get2 (fd_cellid G) i 0; do c_leftglob <- get (sy_l2g S) c_left; do c_right <- get2 (fd_cellid G) i 1; do c_rightglob <- get (sy_l2g S) c_right;
    do d <- get (sy_D S) i; do vl <- get (sy_vol S) c_left; do vr <- get (sy_vol S) c_right;
    over_nodes3 S d i (fun rhs p nod => do o <- get (nd_old N) nod;
      if search_element (sy_bcd S) o =? 1 then
        do V <- get (pb_node B) nod; do rhs <- oadd_at rhs c_leftglob (rhs_left V p vl); oadd_at rhs c_rightglob (rhs_right V p vr)
      else ret rhs) rhs) (sl_inner L) rhs;
  do rhs <- foldM (fun rhs i =>
    do c_left <- get2 (fd_cellid G) i 0; do c_leftglob <- get (sy_l2g S) c_left; do d <- get (sy_D S) i; do vl <- get (sy_vol S) c_left;
    over_nodes3 S d i (fun rhs p nod => do o <- get (nd_old N) nod;
      if search_element (sy_bcd S) o =? 1 then do V <- get (pb_node B) nod; oadd_at rhs c_leftglob (rhs_left V p vl) else ret rhs) rhs) (sl_halo L) rhs;
  foldM (fun rhs i =>
    do c_left <- get2 (fd_cellid G) i 0; do c_leftglob <- get (sy_l2g S) c_left; do d <- get (sy_D S) i; do vl <- get (sy_vol S) c_left;
    do rhs <- over_nodes3 S d i (fun rhs p nod => do g <- get2 (nd_ghost N) nod 0;
      if g_cell g =? -1 then ret rhs else do V <- get (pb_node B) nod; oadd_at rhs c_leftglob (rhs_left V p vl)) rhs;
    do V <- get (pb_face B) i; oadd_at rhs c_leftglob (rhs_face (di_p3 d) vl V)) (sl_dir L) rhs.

Definition zeros_o (n : Z) : list (option R) := map (fun _ => Some 0%R) (range n).
(** linearsystem.py:115-116, 198-210: np.zeros(localsize), compute_local_rhs *)
Definition local_rhs (dim : Z) (S : lsys) (L : sylists) (B : bord) : res (list (option R)) :=
  (if dim =? 2 then get_rhs_loc_2d else get_rhs_loc_3d) S L B (zeros_o (zlen (nd_centerc (sy_N S)))).
(** linearsystem.py:92-93, 212-224: np.zeros(globalsize), compute_global_rhs *)
Definition global_rhs (dim globalsize : Z) (S : lsys) (L : sylists) (B : bord) : res (list (option R)) :=
  (if dim =? 2 then get_rhs_glob_2d else get_rhs_glob_3d) S L B (zeros_o globalsize).

(** ** the constructor *)
(** linearsystem.py:48-51; the arrays of face numbers by label are np.where(faces.name == l)[0] (domain.py:458-509) *)
Definition matrixinnerfaces (dim : Z) (name : list Z) : list Z :=
  np_sort (where_eq name 0 ++ where_eq name 11 ++ where_eq name 33 ++ if dim =? 3 then where_eq name 55 else []).
(** linearsystem.py:45-46, 53-61 with pyccel_functions.py:9-21; an absent boundary is None, which has no _BCtype *)
Definition pbord (D : bcdom) (v : variable) : res bord :=
  foldM (fun B l => match lookup (va_bcs v) l with
    | None => Err AttributeError
    | Some b =>
      match b_type b with
      | BDirichlet =>
        do vf <- get (va_heap v) (b_vface b); do vn <- get (va_heap v) (b_vnode b);
        do pf <- foldM (fun p i => do x <- get vf i; set p i x) (bc_faces D (b_loc b)) (pb_face B);
        do pn <- foldM (fun p i => do x <- get vn i; set p i x) (where_eq (bd_oldname D) (b_index b)) (pb_node B);
        ret {| pb_node := pn; pb_face := pf |}
      | BNeumann => do pn <- foldM (fun p i => set p i 1%R) (where_eq (bd_oldname D) (b_index b)) (pb_node B); ret {| pb_node := pn; pb_face := pb_face B |}
      | _ => ret B
      end
    end) (locs (bd_dim D)) {| pb_node := zeros_like 0%R (bd_nbnodes D); pb_face := zeros_like 0%R (zlen (bd_name D)) |}.

(** the solver argument; [SOther]: any other string *)
Inductive solver := SSpsolve | SUmfpack | SPetsc | SMumps | SOther.
(** what the constructor leaves behind: the size of the triplet arrays and the right-hand side, if there is one *)
Record linsys := { li_size : Z; li_rhs : option (list (option R)) }.
(** [a += b] for two arrays of one length (checked by an assertion) *)
Definition add_rhs (a : list (option R)) (user : option (list R)) : res (list (option R)) :=
  match user with
  | None => ret a
  | Some u => if zlen u =? zlen a then ret (map (fun xy => oadd (fst xy) (Some (snd xy))) (combine a u)) else Err AssertionError
  end.
(** linearsystem.py:27-138.  [size], [rank]: of the communicator; [globalsize]: allreduce of the number of cells; [reduce x]: the array that
    comm.reduce delivers to rank 0 when this rank contributes x (the other ranks get None).  domain and var are given. *)
Definition new_linsys (size rank globalsize : Z) (reduce : list (option R) -> list (option R)) (S : lsys) (D : bcdom) (v : variable) (L : sylists)
    (sol : option solver) (user : option (list R)) : res linsys :=
  let dim := bd_dim D in
  do B <- pbord D v;
  do n <- matrix_size dim S L;
  match sol with
  | None => Err AttributeError     (* l.87: [solver] is a property without setter *)
  | Some SSpsolve =>
    if size =? 1 then do g <- global_rhs dim globalsize S L B; do g <- add_rhs g user; ret {| li_size := n; li_rhs := Some g |} else Err AssertionError
  | Some SUmfpack =>
    if size =? 1 then do g <- global_rhs dim globalsize S L B; ret {| li_size := n; li_rhs := Some g |} else Err AssertionError
  | Some SPetsc => do l <- local_rhs dim S L B; do l <- add_rhs l user; ret {| li_size := n; li_rhs := Some l |}
  | Some SMumps =>
    do g <- global_rhs dim globalsize S L B;
    if rank =? 0 then do g <- add_rhs (reduce g) user; ret {| li_size := n; li_rhs := Some g |}
    else match user with None => ret {| li_size := n; li_rhs := None |} | Some _ => Err TypeError (* len(None) *) end
  | Some SOther => ret {| li_size := n; li_rhs := None |}
  end.

(** ** gradient of the solution: compute_P_gradient_2d / _3d, pyccel_functions.py:1854-2110, called from LinearSystem.compute_Sol_gradient, linearsystem.py:184-195 *)
(** l.1878-1879 (and the four other loops); in 2D Pz_face is not written, here the third component of what is stored is 0 *)
Definition sol_grad2 (D : list diamond) (i : Z) (vi1 vi2 vv1 vv2 : R) : res (option pt) :=
  do d <- get D i;
  ret (match odiv (-1) (2 * di_air d), odiv 1 (2 * di_air d) with
       | Some k, Some k' =>
         Some (P3 (k * ((vi1 + vv1) * py (di_f1 d) + (vv1 + vi2) * py (di_f2 d) + (vi2 + vv2) * py (di_f3 d) + (vv2 + vi1) * py (di_f4 d)))
                  (k' * ((vi1 + vv1) * px (di_f1 d) + (vv1 + vi2) * px (di_f2 d) + (vi2 + vv2) * px (di_f3 d) + (vv2 + vi1) * px (di_f4 d))) 0)
       | _, _ => None end).
(** l.1998-2000 *)
Definition sol_grad3 (G : facedata) (D : list diamond) (i : Z) (v_a v_b v_c v_d v_l v_r : R) : res (option pt) :=
  do d <- get D i; do n <- get (fd_normal G) i;
  let comp c := odiv (-1 * (c (di_f1 d) * (v_a - v_c) + c (di_f2 d) * (v_b - v_d) + c n * (v_r - v_l)))%R (di_air d) in
  ret (match comp px, comp py, comp pz with Some gx, Some gy, Some gz => Some (P3 gx gy gz) | _, _, _ => None end).
(** one face: [node k] is the value taken at node k, [right vl] the one on the other side when the left one is vl *)
Definition sol_face (dim : Z) (G : facedata) (D : list diamond) (W : values) (node : Z -> res R) (right : R -> res R) (g : list (option pt)) (i : Z) : res (list (option pt)) :=
  do c_left <- get2 (fd_cellid G) i 0;
  do vl <- get (w_c W) c_left; do vr <- right vl;
  do i1 <- get2 (fd_nodes G) i 0; do i2 <- get2 (fd_nodes G) i 1;
  do v1 <- node i1; do v2 <- node i2;
  do r <- (if dim =? 2 then sol_grad2 D i v1 v2 vl vr
           else do i3 <- get2 (fd_nodes G) i 2; do v3 <- node i3; sol_grad3 G D i v1 v2 v3 v3 vl vr);
  set g i r.
(** the five loops; [w_node]: var.node after the interpolation, [g]: gradfacex/y/z on entry *)
Definition compute_P_gradient (dim : Z) (S : lsys) (B : bord) (W : values) (w_node : list R) (L : facelists) (g : list (option pt)) : res (list (option pt)) :=
  let G := sy_G S in
  let node k := do v <- get w_node k; do old <- get (nd_old (sy_N S)) k; if search_element (sy_bcd S) old =? 1 then get (pb_node B) k else ret v in
  let cells g i := do c <- get2 (fd_cellid G) i 1; sol_face dim G (sy_D S) W node (fun _ => get (w_c W) c) g i in
  do g <- foldM cells (fl_inner L) g;
  do g <- foldM cells (fl_periodic L) g;
  do g <- foldM (fun g i => sol_face dim G (sy_D S) W node (fun _ => get (w_ghost W) i) g i) (fl_neumann L) g;
  do g <- foldM (fun g i => do h <- get (fd_halofid G) i; sol_face dim G (sy_D S) W node (fun _ => get (w_halo W) h) g i) (fl_halo L) g;
  foldM (fun g i => do vk <- get (pb_face B) i; sol_face dim G (sy_D S) W (get (pb_node B)) (fun vl => ret (2 * vk - vl)%R) g i) (fl_dirichlet L) g.
