(** * Model_part: mesh partitioning and the per-rank mesh files.
    Models manapy/ddm/numba_ddm.py (create_npart_cpart, unique_func, det_vec_3d, read_mesh_file)
    and manapy/ddm/meshpartitioning.py (readmesh).
    General simplification: a loop [for k in range(len(l))] that only uses [l[k]] and does not
    change [l] is written as a loop over the elements of [l]. *)
From Verif Require Import Py.
From Coq Require Import Reals.
Open Scope Z_scope.

(** numba_ddm.py:16-21, 23-29: first loop of create_npart_cpart, body for one (i, j).
    State: npart, node_part. *)
Definition npart_step (cells : list (list Z)) (epart : list Z) (i : Z)
    (s : list (list Z) * list (list Z)) (j : Z) : res (list (list Z) * list (list Z)) :=
  let '(npart, node_part) := s in
  do k <- get2 cells i j;
  do e <- get epart i;
  do nk <- get npart k;
  do npart' <- (if mem e nk then ret npart else append_at npart k e);
  do node_part' <- append_at node_part e k;
  ret (npart', node_part').

(** numba_ddm.py:23-29 *)
Definition npart_loop (cells : list (list Z)) (epart : list Z) (nbelements dim : Z)
    (npart node_part cell_part : list (list Z)) :=
  foldM (fun '(npart, node_part, cell_part) i =>
    do (npart', node_part') <- foldM (npart_step cells epart i) (range (dim + 1)) (npart, node_part);
    do e <- get epart i;
    do cell_part' <- append_at cell_part e i;
    ret (npart', node_part', cell_part'))
  (range nbelements) (npart, node_part, cell_part).

(** numba_ddm.py:34-36: append to cpart[i] the parts of one node that are missing *)
Definition cpart_step (i : Z) (cpart : list (list Z)) (q : Z) : res (list (list Z)) :=
  do ci <- get cpart i;
  if mem q ci then ret cpart else append_at cpart i q.

(** numba_ddm.py:32-36 *)
Definition cpart_loop (cells : list (list Z)) (npart : list (list Z)) (nbelements dim : Z)
    (cpart : list (list Z)) :=
  foldM (fun cpart i =>
    foldM (fun cpart j =>
      do n <- get2 cells i j;
      do nk <- get npart n;
      foldM (cpart_step i) nk cpart) (range (dim + 1)) cpart)
  (range nbelements) cpart.

(** numba_ddm.py:38-41 *)
Definition neighsub_loop (npart : list (list Z)) (nbnodes : Z) (neighsub : list (list Z)) :=
  foldM (fun neighsub i =>
    do r <- get npart i;
    if 1 <? zlen r then foldM (fun ns p => extend_at ns p r) r neighsub else ret neighsub)
  (range nbnodes) neighsub.

(** numba_ddm.py:45-49: cumulative count for one cell j of part i *)
Definition halo_cell_step (cells : list (list Z)) (npart : list (list Z)) (dim i j : Z)
    (s : Z * list (list Z)) (k : Z) : res (Z * list (list Z)) :=
  let '(a, halo) := s in
  do n <- get2 cells j k;
  do r <- get npart n;
  let a' := a + zlen r in
  if dim + 1 <? a' then (do halo' <- append_at halo i j; ret (a', halo')) else ret (a', halo).

(** numba_ddm.py:43-49 *)
Definition halo_loop (cells npart cell_part : list (list Z)) (SIZE dim : Z) (halo : list (list Z)) :=
  foldM (fun halo i =>
    do cp <- get cell_part i;
    foldM (fun halo j =>
      do (_, halo') <- foldM (halo_cell_step cells npart dim i j) (range (dim + 1)) (0, halo);
      ret halo') cp halo)
  (range SIZE) halo.

Record parts := { p_npart : list (list Z); p_cpart : list (list Z); p_neighsub : list (list Z);
                  p_node_part : list (list Z); p_cell_part : list (list Z); p_halo : list (list Z) }.

(** numba_ddm.py:14-51 create_npart_cpart *)
Definition create_npart_cpart (cells : list (list Z)) (npart0 epart : list Z)
    (nbnodes nbelements SIZE dim : Z) : res parts :=
  let npart := map (fun i => [i]) npart0 in
  let cpart := map (fun i => [i]) epart in
  let empty := map (fun _ => @nil Z) (range SIZE) in
  do (npart, node_part, cell_part) <- npart_loop cells epart nbelements dim npart empty empty;
  do cpart <- cpart_loop cells npart nbelements dim cpart;
  do neighsub <- neighsub_loop npart nbnodes empty;
  do halo <- halo_loop cells npart cell_part SIZE dim empty;
  ret {| p_npart := npart; p_cpart := cpart; p_neighsub := neighsub;
         p_node_part := node_part; p_cell_part := cell_part; p_halo := halo |}.

(** numba_ddm.py:53-55 unique_func: np.unique with return_index, re-sorted by first index, i.e.
    the distinct values in order of first occurrence.  Simplified to that direct recursion. *)
Definition unique_func (l : list Z) : list Z :=
  fold_left (fun acc x => if mem x acc then acc else acc ++ [x]) l [].

(** meshpartitioning.py:200-205 *)
Definition uniq_parts (SIZE : Z) (p : parts) : res parts :=
  do neigh <- mapM (fun i => do r <- get (p_neighsub p) i;
                             ret (filter (fun q => negb (q =? i)) (np_unique r))) (range SIZE);
  do cellp <- mapM (fun i => do r <- get (p_cell_part p) i; ret (np_unique r)) (range SIZE);
  do nodep <- mapM (fun i => do r <- get (p_node_part p) i; ret (unique_func r)) (range SIZE);
  do halo <- mapM (fun i => do r <- get (p_halo p) i; ret (np_unique r)) (range SIZE);
  ret {| p_npart := p_npart p; p_cpart := p_cpart p; p_neighsub := neigh;
         p_node_part := nodep; p_cell_part := cellp; p_halo := halo |}.

(** meshpartitioning.py:207-212: the three dictionaries, filled rank by rank.
    State: globcelltoloc, globnodetoloc, locnodetoglob. *)
Definition loc_dicts (SIZE : Z) (p : parts) : res (dict2 Z * dict2 Z * dict2 Z) :=
  foldM (fun '(gc, gn, ln) i =>
    do cp <- get (p_cell_part p) i;
    do gc' <- foldM (fun gc j => do c <- get cp j; ret (dset gc (i, j) c)) (range (zlen cp)) gc;
    do np <- get (p_node_part p) i;
    do (gn', ln') <- foldM (fun '(gn, ln) j => do n <- get np j;
                               ret (dset gn (i, n) j, dset ln (i, j) n)) (range (zlen np)) (gn, ln);
    ret (gc', gn', ln'))
  (range SIZE) ([], [], []).

(** meshpartitioning.py:214-219: tc is a zero array of length nbelements filled through a counter *)
Definition make_tc (SIZE nbelements : Z) (p : parts) : res (list Z) :=
  do (_, tc) <- foldM (fun '(cmpt, tc) i =>
      do cp <- get (p_cell_part p) i;
      foldM (fun '(cmpt, tc) c => do tc' <- set tc cmpt c; ret (cmpt + 1, tc')) cp (cmpt, tc))
    (range SIZE) (0, map (fun _ => 0) (range nbelements));
  ret tc.

(** meshpartitioning.py:225-228 for one cell *)
Definition halo_dict_cell (cpart : list (list Z)) (i : Z)
    (s : dict2 (list Z) * dict2 (list Z)) (cell : Z) : res (dict2 (list Z) * dict2 (list Z)) :=
  do cc <- get cpart cell;
  ret (fold_left (fun '(hi, he) q =>
         if negb (i =? q) then (dappend hi (i, q) cell, dappend he (q, i) cell) else (hi, he)) cc s).

(** meshpartitioning.py:221-228: haloint, haloext *)
Definition halo_dicts (SIZE : Z) (p : parts) : res (dict2 (list Z) * dict2 (list Z)) :=
  foldM (fun s i => do hc <- get (p_halo p) i; foldM (halo_dict_cell (p_cpart p) i) hc s)
        (range SIZE) ([], []).

(** A point: coordinates x, y, z.  mesh.points rows have three columns. *)
Record pt := P3 { px : R; py : R; pz : R }.

(** numba_ddm.py:58-73 wedge_3d, dot_vec3, det_vec_3d, applied to b-a, c-a, d-a *)
Definition det3 (u v w : pt) : R :=
  (px u * (py v * pz w - pz v * py w) + py u * (pz v * px w - px v * pz w)
   + pz u * (px v * py w - py v * px w))%R.
Definition psub (a b : pt) : pt := P3 (px a - px b) (py a - py b) (pz a - pz b).

(** meshpartitioning.py:236-248: centre and area of one halo triangle [[x;y;z;vol]] *)
Definition centvol2 (cells : list (list Z)) (nodes : list pt) (c : Z) : res (list R) :=
  do s1 <- get2 cells c 0; do s2 <- get2 cells c 1; do s3 <- get2 cells c 2;
  do a <- get nodes s1; do b <- get nodes s2; do d <- get nodes s3;
  ret [ (1/3 * (px a + px b + px d))%R; (1/3 * (py a + py b + py d))%R; 0%R;
        (1/2 * Rabs ((px a - px b) * (py a - py d) - (px a - px d) * (py a - py b)))%R ].

(** meshpartitioning.py:255-272: centre and volume of one halo tetrahedron *)
Definition centvol3 (cells : list (list Z)) (nodes : list pt) (c : Z) : res (list R) :=
  do s1 <- get2 cells c 0; do s2 <- get2 cells c 1; do s3 <- get2 cells c 2; do s4 <- get2 cells c 3;
  do a <- get nodes s1; do b <- get nodes s2; do d <- get nodes s3; do e <- get nodes s4;
  ret [ (1/4 * (px a + px b + px d + px e))%R; (1/4 * (py a + py b + py d + py e))%R;
        (1/4 * (pz a + pz b + pz d + pz e))%R;
        (1/6 * Rabs (det3 (psub b a) (psub d a) (psub e a)))%R ].

(** meshpartitioning.py:231-272: rows of centvol[i] *)
Definition make_centvol (dim : Z) (cells : list (list Z)) (nodes : list pt)
    (haloext : dict2 (list Z)) (i : Z) (neigh : list Z) : res (list (list R)) :=
  do rows <- mapM (fun j => do l <- dget haloext (i, j);
                            mapM (fun c => if dim =? 2 then centvol2 cells nodes c
                                           else centvol3 cells nodes c) l) neigh;
  ret (concat rows).

(** What one rank's file contains, section by section (order of meshpartitioning.py:294-343). *)
Record rankfile := {
  rf_elements : list (list Z);      (* l.295-301, local node numbers *)
  rf_nodes : list (pt * Z);         (* l.302-307, coordinates and label *)
  rf_halosint : list Z;             (* l.308-313 *)
  rf_halosext : list (list Z);      (* l.314-322: cell number then its global nodes *)
  rf_centvol : list (list R);       (* l.323-325 *)
  rf_loctoglob : list Z;            (* l.326-330, section "globalcelltolocal" *)
  rf_nodeloctoglob : list Z;        (* l.331-335 *)
  rf_neigh : list Z;                (* l.336-339 *)
  rf_neighcount : list Z            (* l.340-342 *) }.

(** meshpartitioning.py:292-343: content of the file of rank i *)
Definition make_rankfile (dim : Z) (cells : list (list Z)) (nodes : list pt) (ghost_nodes : list Z)
    (p : parts) (gc gn ln : dict2 Z) (haloint haloext : dict2 (list Z)) (i : Z) : res rankfile :=
  do cp <- get (p_cell_part p) i;
  do np <- get (p_node_part p) i;
  do neigh <- get (p_neighsub p) i;
  do elements <- mapM (fun c => mapM (fun k => do n <- get2 cells c k; dget gn (i, n)) (range (dim + 1))) cp;
  do nds <- mapM (fun n => do x <- get nodes n; do g <- get ghost_nodes n; ret (x, g)) np;
  do hint <- mapM (fun j => dget haloint (i, j)) neigh;
  do hext <- mapM (fun j => do l <- dget haloext (i, j);
                            mapM (fun c => do row <- mapM (fun m => get2 cells c m) (range (dim + 1));
                                           ret (c :: row)) l) neigh;
  do cv <- make_centvol dim cells nodes haloext i neigh;
  do l2g <- mapM (fun j => dget gc (i, j)) (range (zlen cp));
  do nl2g <- mapM (fun j => dget ln (i, j)) (range (zlen np));
  do cnt <- mapM (fun j => do l <- dget haloint (i, j); ret (zlen l)) neigh;
  ret {| rf_elements := elements; rf_nodes := nds; rf_halosint := concat hint;
         rf_halosext := concat hext; rf_centvol := cv; rf_loctoglob := l2g;
         rf_nodeloctoglob := nl2g; rf_neigh := neigh; rf_neighcount := cnt |}.

(** Everything readmesh writes when SIZE > 1: GtoL (mesh0.txt), the rank files, nodeparts (mesh_master.txt). *)
Record partition := { pa_tc : list Z; pa_files : list rankfile; pa_nparts : list (list Z) }.

(** meshpartitioning.py:181-353 (SIZE > 1).  [npart0], [epart] are what metis.part_mesh_dual returned;
    directory handling and prints are not modelled. *)
Definition readmesh_parallel (dim SIZE : Z) (cells : list (list Z)) (nodes : list pt)
    (ghost_nodes npart0 epart : list Z) : res partition :=
  do p0 <- create_npart_cpart cells npart0 epart (zlen nodes) (zlen cells) SIZE dim;
  do p <- uniq_parts SIZE p0;
  do (gc, gn, ln) <- loc_dicts SIZE p;
  do tc <- make_tc SIZE (zlen cells) p;
  do (hint, hext) <- halo_dicts SIZE p;
  do files <- mapM (make_rankfile dim cells nodes ghost_nodes p gc gn ln hint hext) (range SIZE);
  ret {| pa_tc := tc; pa_files := files; pa_nparts := p_npart p |}.
