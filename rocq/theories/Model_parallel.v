(** * Model_parallel: from a mesh to the domains of all the ranks.
    Models the program  readmesh(filename, dim); domain = Domain(dim=dim)  on every rank: manapy/ddm/meshpartitioning.py:119-353 (readmesh, run by
    rank 0), manapy/ddm/numba_ddm.py:255-366 (read_mesh_file) and manapy/ddm/domain.py:330-596 (Domain.__init__) on each rank, with the exchange
    of update_haloghost_info (communication.py:75-419) and the tables of prepare_comm (communication.py:38-72) between the ranks.
    Everything is a composition of Model_part, Model_file, Model_domain, Model_haloghost and Model_comm; new are only the conversions of
    domain.py:345-372.  Simplification: the ranks run the parts between two collective calls one after the other. *)
From Coq Require Import Reals.
From Verif Require Import Py Model_part Model_file Model_label Model_conn Model_geom Model_halo Model_periodic Model_interp Model_comm Model_haloghost Model_domain.
Open Scope Z_scope.

(** int(x) of a float: truncation towards zero *)
Definition trunc (x : R) : Z := if Rle_dec 0 x then Int_part x else - Int_part (- x).
(** the coordinates in a row of nodes._vertex or halos._centvol; domain.py:356, 368 *)
Definition row_pt (row : list R) : res pt := do x <- get row 0; do y <- get row 1; do z <- get row 2; ret (P3 x y z).
(** domain.py:370-372, 449-450: int(nodes._vertex[i][3]) *)
Definition row_label (row : list R) : res Z := do t <- get row 3; ret (trunc t).

(** what a rank has read, as domain.py:345-372 keeps it.  With one rank cells._loctoglob is the identity (numba_ddm.py:493-498) *)
Record local := { lo_cells : list (list Z); lo_vertex : list pt; lo_label : list Z; lo_ext : list (list Z); lo_center : list pt;
  lo_node : list Z; lo_cell : list Z; lo_neigh : list Z; lo_parts : list (list Z) }.
Definition unpack (size : Z) (md : meshdata) : res local :=
  do vertex <- mapM row_pt (md_vertex md);
  do label <- mapM row_label (md_vertex md);
  do center <- mapM row_pt (md_centvol md);
  ret {| lo_cells := md_nodeid md; lo_vertex := vertex; lo_label := label; lo_ext := md_halosext md; lo_center := center; lo_node := md_nodeloctoglob md;
         lo_cell := if size =? 1 then range (zlen (md_nodeid md)) else md_loctoglob md; lo_neigh := hd [] (md_neigh md); lo_parts := md_nparts md |}.

(** domain.py:349-556 on one rank *)
Definition begin_rank (f32 : R -> R) (dim size : Z) (L : local) : res prepared :=
  first_half f32 dim size (lo_cells L) (lo_vertex L) (lo_label L) (lo_ext L) (lo_node L).
(** what the rank brings to update_haloghost_info: domain.py:558, 578; the halo nodes are l.482 *)
Definition brings (L : local) (P : prepared) : hgrank :=
  {| hk_nodes := where_eq (h_nodename (pr_h P)) 10; hk_ghost := pt_ghost (pr_p P); hk_node := h_loctoglob (pr_h P); hk_cell := lo_cell L; hk_neigh := lo_neigh L;
     hk_nodehalo := h_nodehalo (pr_h P); hk_ext := lo_ext L |}.
Definition rank_data (L : local) (o : hgout) : rankdata :=
  {| rk_ext := lo_ext L; rk_center := lo_center L; rk_node := lo_node L; rk_cell := lo_cell L; rk_hg := ho_ghost o; rk_info := ho_info o; rk_nhg := ho_size o |}.
(** domain.py:558-596 on one rank *)
Definition end_rank (dim : Z) (L : local) (P : prepared) (o : hgout) : res domain :=
  second_half dim (lo_vertex L) (lo_label L) (rank_data L o) P.
(** Domain.__init__ on all the ranks *)
Definition build_all (f32 : R -> R) (dim SIZE : Z) (Ls : list local) : res (list domain) :=
  do Ps <- mapM (begin_rank f32 dim SIZE) Ls;
  do Hs <- mapM (fun r => do L <- get Ls r; do P <- get Ps r; ret (brings L P)) (range SIZE);
  do L0 <- get Ls 0;
  do outs <- exchange_ghosts SIZE (lo_parts L0) Hs;
  mapM (fun r => do L <- get Ls r; do P <- get Ps r; do o <- get outs r; end_rank dim L P o) (range SIZE).

(** what prepare_comm (domain.py:454) reads: halos._neigh, halos._halosint, cells._globtoloc *)
Definition comm_part (md : meshdata) : rankfile :=
  {| rf_elements := []; rf_nodes := []; rf_halosint := md_halosint md; rf_halosext := []; rf_centvol := []; rf_loctoglob := md_loctoglob md; rf_nodeloctoglob := [];
     rf_neigh := hd [] (md_neigh md); rf_neighcount := hd [] (tl (md_neigh md)) |}.
(** meshpartitioning.py:165-353 and numba_ddm.py:255-366: the files are written by rank 0 and read by all *)
Definition partition_and_read (dim SIZE : Z) (cells : list (list Z)) (nodes : list pt) (labels npart0 epart : list Z) : res (list meshdata) :=
  if SIZE =? 1 then mapM (fun r => read_mesh_file SIZE r (write_seq cells nodes labels) []) (range SIZE)
  else do pa <- readmesh_parallel dim SIZE cells nodes labels npart0 epart;
       mapM (fun r => do file <- write_file pa r; read_mesh_file SIZE r file (write_master pa)) (range SIZE).
(** the whole program.  [cells], [nodes], [labels]: the mesh (cell nodes, coordinates, labels of the nodes: meshpartitioning.py:119-163);
    [npart0], [epart]: the answer of METIS (l.181-184).  Result: the domains and, with several ranks, the communication tables; the order in which cells are sent to the ranks. *)
(** [se_tc]: cells._tc of each rank (domain.py:361) *)
Record setting := { se_domains : list domain; se_comms : list rankcomm; se_tc : list (list Z) }.
Definition setup (f32 : R -> R) (dim SIZE : Z) (cells : list (list Z)) (nodes : list pt) (labels npart0 epart : list Z) : res setting :=
  do mds <- partition_and_read dim SIZE cells nodes labels npart0 epart;
  do Ls <- mapM (unpack SIZE) mds;
  do comms <- (if SIZE =? 1 then ret [] else prepare_comm SIZE (map comm_part mds));
  do Ds <- build_all f32 dim SIZE Ls;
  ret {| se_domains := Ds; se_comms := comms; se_tc := map md_tc mds |}.
