(** * Model_save: saving of results, on all the ranks.
    Models manapy/ddm/domain.py:608-664 (save_on_cell) and 665-718 (save_on_node), and meshpartitioning.py:33-41 (readmesh empties the directory results).
    Floats are reals.  In save_on_cell the data is handed over as {"w": {"w": value}}: what is modelled is the value (the nesting is meshio's business).
    meshio.write_points_cells is taken to write the points, cells and data it is given to the file it is given, replacing what was there.
    Simplifications: the ranks execute what follows the collective Reduce one after the other, in an arbitrary order (parameter [order]: the theorems are for
    every one); file names are identified with the numbers they are made of (str of an int is injective, the first number consists of digits and is followed
    by "-"; the extensions .vtu and .pvtu keep the two kinds apart). *)
From Coq Require Import String Reals.
From Verif Require Import Py Model_part Model_conn Model_geom Model_domain Model_parallel.
Open Scope Z_scope.

(** what meshio is asked to write: points, the type and the rows of the cells, and the data named "w" on the cells or on the points *)
Inductive shape := Triangle | Tetra.
Inductive griddata := CellData (w : list R) | PointData (w : list R).
Record grid := { gr_points : list pt; gr_shape : shape; gr_cells : list (list Z); gr_data : griddata }.
(** what is written to the index file: fixed text, or <Piece Source="visu{rank}-{miter}.vtu"/> *)
Inductive written := Text (s : string) | Piece (rank miter : Z).
(** the directory results: visu{rank}-{miter}.vtu and visu{miter}.pvtu *)
Record files := { fs_vtu : Z -> Z -> option grid; fs_pvtu : Z -> option (list written) }.
(** meshpartitioning.py:36-41: rank 0 creates the directory or removes the files in it *)
Definition emptied (F : files) : files := {| fs_vtu := fun _ _ => None; fs_pvtu := fun _ => None |}.

(** domain.py:634-635 / 688-689 *)
Definition write_grid (F : files) (rank miter : Z) (g : grid) : files :=
  {| fs_vtu := fun r m => if (r =? rank) && (m =? miter) then Some g else fs_vtu F r m; fs_pvtu := fs_pvtu F |}.
(** domain.py:638 / 692: open(..., "a") and text_file.write(...) *)
Definition append_text (F : files) (miter : Z) (l : list written) : files :=
  {| fs_vtu := fs_vtu F; fs_pvtu := fun m => if m =? miter then Some (match fs_pvtu F m with None => [] | Some k => k end ++ l) else fs_pvtu F m |}.

(** domain.py:639-663 / 693-717, in this order *)
Definition declaration : written := Text "<?xml version=""1.0""?>\n".
Definition index_head (cells : bool) : list written :=
  [declaration; Text "<VTKFile type=""PUnstructuredGrid"" version=""0.1"" byte_order=""LittleEndian"">\n"; Text "<PUnstructuredGrid GhostLevel=""0"">\n";
   Text "<PPoints>\n"; Text "<PDataArray type=""Float64"" Name=""Points"" NumberOfComponents=""3"" format=""binary""/>\n"; Text "</PPoints>\n";
   Text "<PCells>\n"; Text "<PDataArray type=""Int64"" Name=""connectivity"" format=""binary""/>\n"; Text "<PDataArray type=""Int64"" Name=""offsets"" format=""binary""/>\n";
   Text "<PDataArray type=""Int64"" Name=""types"" format=""binary""/>\n"; Text "</PCells>\n";
   Text (if cells then "<PCellData Scalars=""h"">\n" else "<PPointData Scalars=""h"">\n"); Text "<PDataArray type=""Float64"" Name=""w"" format=""binary""/>\n";
   Text (if cells then "</PCellData>\n" else "</PPointData>\n")].
Definition index_text (cells : bool) (SIZE miter : Z) : list written :=
  index_head cells ++ map (fun i => Piece i miter) (range SIZE) ++ [Text "</PUnstructuredGrid>\n"; Text "</VTKFile>"].

(** Python's max of an array; ValueError when it is empty *)
Definition py_max (l : list R) : res R := match l with [] => Err ValueError | x :: t => ret (fold_left Rmax t x) end.

(** domain.py:610-622 / 667-676: the tests, on one rank; nbcells = len(nodeid), nbnodes = len(vertex) *)
Definition check_value (cells : bool) (D : domain) (value : option (list R)) : res (list R) :=
  match value with
  | None => Err ValueError
  | Some w => if zlen w =? (if cells then zlen (dm_cellnodes D) else zlen (dm_vertex D)) then ret w else Err AssertionError
  end.
(** domain.py:614-620, 634 / 671-674, 688 *)
Definition grid_of (cells : bool) (D : domain) (w : list R) : grid :=
  {| gr_points := dm_vertex D; gr_shape := if dm_dim D =? 2 then Triangle else Tetra; gr_cells := dm_cellnodes D; gr_data := if cells then CellData w else PointData w |}.
(** domain.py:634-663 / 688-717, rank r *)
Definition write_rank (cells : bool) (SIZE miter : Z) (F : files) (r : Z) (D : domain) (w : list R) : files :=
  let F := write_grid F r miter (grid_of cells D w) in
  if (r =? 0) && (1 <? SIZE) then append_text F miter (index_text cells SIZE miter) else F.
(** what rank 0 prints, l. 631-632 / 685-686 *)
Record report := { rp_niter : Z; rp_time : R; rp_dt : R; rp_max : R }.

(** save_on_cell ([cells] = true) / save_on_node, called by all the ranks, each with its [value] ([None]: no value given) *)
Definition save (cells : bool) (order : list Z) (SIZE : Z) (st : setting) (dt time : R) (niter miter : Z) (values : list (option (list R))) (F : files) : res (files * report) :=
  do ws <- mapM (fun r => do D <- get (se_domains st) r; do v <- get values r; check_value cells D v) (range SIZE);
  do ms <- mapM py_max ws;
  do top <- py_max ms;
  do F <- foldM (fun F r => do D <- get (se_domains st) r; do w <- get ws r; ret (write_rank cells SIZE miter F r D w)) order F;
  ret (F, {| rp_niter := niter; rp_time := time; rp_dt := dt; rp_max := top |}).

(** a program that saves several times: the calls, one after the other *)
Record call := { ca_cells : bool; ca_order : list Z; ca_dt : R; ca_time : R; ca_niter : Z; ca_miter : Z; ca_values : list (option (list R)) }.
Definition saves (SIZE : Z) (st : setting) (calls : list call) (F : files) : res files :=
  foldM (fun F a => do p <- save (ca_cells a) (ca_order a) SIZE st (ca_dt a) (ca_time a) (ca_niter a) (ca_miter a) (ca_values a) F; ret (fst p)) calls F.
