(** * Model_domain: the constructor of a domain on one rank, and what the rest of the code reads of it.
    Models manapy/ddm/domain.py:330-596 (Domain.__init__), composed of the functions modelled in Model_geom, Model_conn,
    Model_halo, Model_label, Model_periodic and Model_interp.
    Simplifications: tables nothing of the model reads (cells.tc) and the communication counts of prepare_comm (Model_comm) are left out; the
    placeholders zeros((2,2)) of halos.centvol and halos.halosext with one rank (numba_ddm.py:430-431, 491) are empty tables here: with one rank
    no face or node has the label 10 that makes a kernel look into them; node lists are left out except through [where_eq]; the ghosts of
    halo nodes received from the other ranks in update_haloghost_info are a parameter ([rk_hg], [rk_info], [rk_nhg]); the exchange itself is
    Model_haloghost, and Model_parallel puts the two together. *)
From Coq Require Import Reals.
From Verif Require Import Py Model_part Model_label Model_conn Model_geom Model_halo Model_periodic Model_interp Model_fvm Model_bc Model_linsys.
From Verif Require Model_sw.
Open Scope Z_scope.

Record domain := {
  dm_dim : Z;
  (* nodes: _vertex[:,0:3], _oldname = _vertex[:,3], _name, _cellid, _halonid, _periodicid, _ghostcenter, _haloghostcenter,
     the face centres in _haloghostfaceinfo, R/lambda/number, _loctoglob *)
  dm_vertex : list pt; dm_old : list Z; dm_nodename : list Z; dm_nodecell : list (list Z); dm_nodehalo : list (list Z); dm_nodeperiodic : list (list Z);
  dm_nodeghost : list (list gentry); dm_haloghost : list (list gentry); dm_hginfo : list (list pt); dm_nodevar : list nodevar; dm_nodeglob : list Z;
  (* cells: _nodeid, _center, _volume, _cellnid, _faceid, _cellfid, _nf, _halonid, _loctoglob, _periodicfid, _periodicnid, _shift *)
  dm_cellnodes : list (list Z); dm_center : list pt; dm_volume : list R; dm_cellnid : list (list Z); dm_faceid : list (list Z); dm_cellfid : list (list Z);
  dm_nf : list (list pt); dm_cellhalo : list (list Z); dm_loctoglob : list Z; dm_periodicfid : list Z; dm_periodicnid : list (list Z); dm_shift : list pt;
  (* faces: _nodeid, _cellid, _name, _normal, _mesure, _center, _oppnodeid, _halofid, _ghostcenter, f_1 .. param4 *)
  dm_facenodes : list (list Z); dm_cellid : list (list Z); dm_name : list Z; dm_normal : list pt; dm_mesure : list R; dm_fcenter : list pt;
  dm_opp : list (list Z); dm_halofid : list Z; dm_fghost : list pt; dm_diamond : list diamond;
  (* halos: the centres in _centvol, _halosext, _sizehaloghost *)
  dm_centerh : list pt; dm_hext : list (list Z); dm_nhg : Z }.

(** what a rank knows of the others: halos._halosext, the centres in halos._centvol, nodes._loctoglob, cells._loctoglob, and the ghosts of halo
    nodes received in update_haloghost_info with the centres of their faces and their number *)
Record rankdata := { rk_ext : list (list Z); rk_center : list pt; rk_node : list Z; rk_cell : list Z; rk_hg : list (list gentry);
  rk_info : list (list pt); rk_nhg : Z }.
(** one rank *)
Definition alone (nbnodes nbcells : Z) : rankdata :=
  {| rk_ext := []; rk_center := []; rk_node := []; rk_cell := range nbcells; rk_hg := zeros_like [] nbnodes; rk_info := zeros_like [] nbnodes; rk_nhg := 0 |}.

(** the padding of nodes._haloghostfaceinfo, beside that of nodes._haloghostcenter ([pad_rows]): communication.py:204-216 / 384-395 *)
Definition pad_pts (rows : list (list pt)) : list (list pt) :=
  let m := fold_left (fun m r => Z.max m (zlen r)) rows 0 in
  let pad := P3 (-1) (-1) (-1) in
  map (fun r => let r' := r ++ repeat pad (Z.to_nat (m - zlen r)) in
                if zlen r' =? 0 then r' ++ [pad] else r') rows.

(** what a rank knows before update_haloghost_info *)
Record prepared := { pr_g : geometry; pr_nodecell : list (list Z); pr_cellnid : list (list Z); pr_h : halostruct; pr_p : pertables }.
Section Build.
Context (f32 : R -> R).
(** domain.py:349-556.  [vertex], [namen]: the coordinates and the labels (int of the fourth column, l.370-372) of the nodes.  The order of the
    calls is that of the code except that create_node_cellid (l.383) comes after the faces; an exception of either ends the constructor. *)
Definition first_half (dim size : Z) (nodeid : list (list Z)) (vertex : list pt) (namen : list Z) (ext : list (list Z)) (nodes : list Z) : res prepared :=
  do g <- build_geometry dim nodeid vertex namen;
  let cells := map cg_nodes (ge_cells g) in
  do (nodecell, cellnid) <- create_node_cellid cells (zlen cells) (zlen vertex) dim;
  do h <- create_halo_structure dim size g vertex namen ext nodes;
  let I := {| pi_fcenter := map fg_center (ge_faces g); pi_cellnid := cellnid; pi_vertex := vertex; pi_nodecell := nodecell |} in
  do p <- update_periodic f32 dim (zlen cells) (zlen vertex) I (h_cellid h) (h_nodeghost h) (h_name h) (h_nodename h);
  ret {| pr_g := g; pr_nodecell := nodecell; pr_cellnid := cellnid; pr_h := h; pr_p := p |}.
(** domain.py:558-596: the padding of update_haloghost_info (communication.py:190-216 / 369-395) and what follows *)
Definition second_half (dim : Z) (vertex : list pt) (namen : list Z) (K : rankdata) (P : prepared) : res domain :=
  let g := pr_g P in let h := pr_h P in let p := pr_p P in
  let nodecell := pr_nodecell P in let cellnid := pr_cellnid P in
  let cells := map cg_nodes (ge_cells g) in
  let fcenter := map fg_center (ge_faces g) in
  let center := map cg_center (ge_cells g) in
  let ghosts := pad_rows (map (map entry_of) (pt_ghost p)) in
  let haloghosts := pad_rows (rk_hg K) in
  let N := {| nd_centerc := center; nd_cellid := nodecell; nd_haloid := h_nodehalo h; nd_periodic := pt_node p; nd_vertex := vertex; nd_old := namen;
              nd_name := h_nodename h; nd_ghost := ghosts; nd_haloghost := haloghosts; nd_centerh := rk_center K; nd_shift := pt_shift p |} in
  do nv <- variables dim N;
  let G := {| fd_cellid := pt_cellid p; fd_nodes := ge_facenodes g; fd_ghost := map gc_pt (h_ghost h); fd_name := h_name h; fd_normal := map fg_normal (ge_faces g);
              fd_centerc := center; fd_centerh := rk_center K; fd_halofid := h_halofid h; fd_vertex := vertex; fd_shift := pt_shift p |} in
  do di <- face_gradient_info dim G;
  ret {| dm_dim := dim;
         dm_vertex := vertex; dm_old := namen; dm_nodename := h_nodename h; dm_nodecell := nodecell; dm_nodehalo := h_nodehalo h; dm_nodeperiodic := pt_node p;
         dm_nodeghost := ghosts; dm_haloghost := haloghosts; dm_hginfo := pad_pts (rk_info K); dm_nodevar := nv; dm_nodeglob := h_loctoglob h;
         dm_cellnodes := cells; dm_center := center; dm_volume := map cg_volume (ge_cells g); dm_cellnid := cellnid; dm_faceid := cn_faceid (ge_conn g);
         dm_cellfid := cn_cellfid (ge_conn g); dm_nf := ge_nf g; dm_cellhalo := h_cellhalo h; dm_loctoglob := rk_cell K;
         dm_periodicfid := pt_fid p; dm_periodicnid := pt_nid p; dm_shift := pt_shift p;
         dm_facenodes := ge_facenodes g; dm_cellid := pt_cellid p; dm_name := h_name h; dm_normal := map fg_normal (ge_faces g); dm_mesure := map fg_mesure (ge_faces g);
         dm_fcenter := fcenter; dm_opp := cn_opp (ge_conn g); dm_halofid := h_halofid h; dm_fghost := map gc_pt (h_ghost h); dm_diamond := di;
         dm_centerh := rk_center K; dm_hext := rk_ext K; dm_nhg := rk_nhg K |}.
(** the constructor, given what the other ranks send *)
Definition build_domain (dim size : Z) (nodeid : list (list Z)) (vertex : list pt) (namen : list Z) (K : rankdata) : res domain :=
  do P <- first_half dim size nodeid vertex namen (rk_ext K) (rk_node K);
  second_half dim vertex namen K P.
End Build.

(** ** what the kernels are called with *)
(** core.py:438-441 interpolate_celltonode *)
Definition dom_node (D : domain) : nodedata :=
  {| nd_centerc := dm_center D; nd_cellid := dm_nodecell D; nd_haloid := dm_nodehalo D; nd_periodic := dm_nodeperiodic D; nd_vertex := dm_vertex D; nd_old := dm_old D;
     nd_name := dm_nodename D; nd_ghost := dm_nodeghost D; nd_haloghost := dm_haloghost D; nd_centerh := dm_centerh D; nd_shift := dm_shift D |}.
(** core.py:449-453 compute_cell_gradient *)
Definition dom_cell (D : domain) : celldata :=
  {| cd_centerc := dm_center D; cd_cellnid := dm_cellnid D; cd_halonid := dm_cellhalo D; cd_nodes := dm_cellnodes D; cd_periodicnid := dm_periodicnid D;
     cd_periodic := dm_nodeperiodic D; cd_old := dm_old D; cd_ghost := dm_nodeghost D; cd_haloghost := dm_haloghost D; cd_centerh := dm_centerh D; cd_shift := dm_shift D |}.
(** core.py:481-488 compute_face_gradient *)
Definition dom_face (D : domain) : facedata :=
  {| fd_cellid := dm_cellid D; fd_nodes := dm_facenodes D; fd_ghost := dm_fghost D; fd_name := dm_name D; fd_normal := dm_normal D;
     fd_centerc := dm_center D; fd_centerh := dm_centerh D; fd_halofid := dm_halofid D; fd_vertex := dm_vertex D; fd_shift := dm_shift D |}.
(** core.py:458-460 _barthlimiter *)
Definition dom_lim (D : domain) : limdata :=
  {| ld_cellid := dm_cellid D; ld_faceid := dm_faceid D; ld_name := dm_name D; ld_halofid := dm_halofid D; ld_centerc := dm_center D; ld_centerf := dm_fcenter D |}.
(** models/StreamerModel/core.py:91-99 and models/tests/*: explicitscheme_convective; the face lists are those of domain.py:458-513 *)
Definition dom_fv (D : domain) : fvdata :=
  {| fv_cellid := dm_cellid D; fv_name := dm_name D; fv_normal := dm_normal D; fv_centerf := dm_fcenter D; fv_halofid := dm_halofid D;
     fv_centerc := dm_center D; fv_centerh := dm_centerh D; fv_shift := dm_shift D |}.
Definition dom_lists (D : domain) : fvlists :=
  let l := face_lists (dm_dim D) (dm_name D) in
  {| ls_inner := Model_label.fl_inner l; ls_periodic := fl_pboundary l; ls_halo := Model_label.fl_halo l; ls_boundary := fl_boundary l |}.
(** core.py:106-341 Variable.__init__ *)
Definition dom_bc (D : domain) : bcdom :=
  {| bd_dim := dm_dim D; bd_nbcells := zlen (dm_center D); bd_nbnodes := zlen (dm_vertex D); bd_nbhalos := zlen (dm_centerh D); bd_sizehg := dm_nhg D; bd_name := dm_name D; bd_fcenter := dm_fcenter D;
     bd_cellid := dm_cellid D; bd_oldname := dm_old D; bd_vertex := dm_vertex D; bd_hg := dm_haloghost D;
     bd_hginfo := dm_hginfo D; bd_halonodes := where_eq (dm_nodename D) 10 |}.
(** linearsystem.py:48-51, 64-75, 196-341; [bcd]: var.BCdirichlet, [dir]: var.dirichletfaces *)
Definition dom_sys (D : domain) (bcd : list Z) : lsys :=
  {| sy_N := dom_node D; sy_nv := dm_nodevar D; sy_G := dom_face D; sy_D := dm_diamond D; sy_vol := dm_volume D; sy_l2g := dm_loctoglob D; sy_hext := dm_hext D; sy_bcd := bcd |}.
Definition dom_syslists (D : domain) (dir : list Z) : sylists :=
  let l := face_lists (dm_dim D) (dm_name D) in
  {| sl_inner := np_sort (Model_label.fl_inner l ++ fl_pin l ++ fl_pupper l ++ (if dm_dim D =? 3 then fl_pfront l else [])); sl_halo := Model_label.fl_halo l; sl_dir := dir |}.
(** models/SWModel/core.py:87-119: the cell tables of the source term *)
Definition dom_sw (D : domain) : Model_sw.swcells :=
  {| Model_sw.cl_nodeid := dm_cellnodes D; Model_sw.cl_faceid := dm_faceid D; Model_sw.cl_cellfid := dm_cellfid D; Model_sw.cl_nf := dm_nf D; Model_sw.cl_vertex := dm_vertex D |}.
