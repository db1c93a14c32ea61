(** * Spec_save: what the files written by save_on_cell and save_on_node are for (C91). *)
From Coq Require Import String Reals Permutation.
From Verif Require Import Py Model_part Spec_part Model_conn Spec_conn Model_geom Spec_geom Model_domain Spec_domain Model_parallel Spec_parallel Model_save.
Open Scope Z_scope.

(** a field on the cells or on the nodes of the mesh *)
Inductive field := OnCells (X : Z -> R) | OnNodes (N : Z -> R).

Section Files.
Context (dim SIZE : Z) (cells : list (list Z)) (nodes : list pt).
(** the corners of cell j of a grid *)
Definition row (g : grid) (j : Z) : list Z := nthZ [] (gr_cells g) j.
(** the grid consists of the cells [cs] of the mesh, each with its corners, and the field on them *)
Definition shows (fld : field) (cs : list Z) (g : grid) : Prop :=
  gr_shape g = (if dim =? 2 then Triangle else Tetra) /\ zlen (gr_cells g) = zlen cs /\
  (forall j, 0 <= j < zlen cs -> forall k, In k (row g j) -> 0 <= k < zlen (gr_points g)) /\
  match fld with
  | OnCells X => exists w, gr_data g = CellData w /\ zlen w = zlen cs /\ forall j, 0 <= j < zlen cs ->
      Permutation (map (nthZ vzero (gr_points g)) (row g j)) (map (at_node nodes) (cell cells (nthZ 0 cs j))) /\ nthZ 0%R w j = X (nthZ 0 cs j)
  | OnNodes N => exists w, gr_data g = PointData w /\ zlen w = zlen (gr_points g) /\ forall j, 0 <= j < zlen cs ->
      Permutation (map (fun k => (nthZ vzero (gr_points g) k, nthZ 0%R w k)) (row g j)) (map (fun k => (at_node nodes k, N k)) (cell cells (nthZ 0 cs j)))
  end.
(** the files visu{0..SIZE-1}-{m}.vtu together show the field on the mesh, every cell of the mesh in exactly one of them *)
Definition saved (fld : field) (m : Z) (F : files) : Prop :=
  exists parts, zlen parts = SIZE /\ Permutation (concat parts) (range (zlen cells)) /\
    forall r, 0 <= r < SIZE -> exists g, fs_vtu F r m = Some g /\ shows fld (nthZ [] parts r) g.
(** the index file visu{m}.pvtu is one XML document that names these files *)
Definition documents (l : list written) : Z := zlen (filter (fun x => match x with Text s => String.eqb s "<?xml version=""1.0""?>\n" | Piece _ _ => false end) l).
Definition pieces (l : list written) : list (Z * Z) := flat_map (fun x => match x with Text _ => [] | Piece r m => [(r, m)] end) l.
(** it announces data on the cells, or on the points *)
Definition announces (fld : field) (l : list written) : Prop :=
  let c := In (Text "<PCellData Scalars=""h"">\n") l in let p := In (Text "<PPointData Scalars=""h"">\n") l in
  match fld with OnCells _ => c /\ ~ p | OnNodes _ => p /\ ~ c end.
Definition indexed (fld : field) (m : Z) (F : files) : Prop :=
  exists l, fs_pvtu F m = Some l /\ documents l = 1 /\ pieces l = map (fun r => (r, m)) (range SIZE) /\ announces fld l.

(** m is the largest value of the field on the mesh *)
Definition largest (fld : field) (m : R) : Prop :=
  match fld with
  | OnCells X => (forall c, iscell cells c -> (X c <= m)%R) /\ exists c, iscell cells c /\ X c = m
  | OnNodes N => (forall c k, iscell cells c -> In k (cell cells c) -> (N k <= m)%R) /\ exists c k, iscell cells c /\ In k (cell cells c) /\ N k = m
  end.
(** the arrays the ranks pass as [value] hold the field *)
Definition passed (st : setting) (fld : field) (values : list (option (list R))) : Prop :=
  match fld with
  | OnCells X => exists ws, values = map Some ws /\ values_of 0%R SIZE (se_domains st) X ws
  | OnNodes N => exists ws, values = map Some ws /\ zlen ws = SIZE /\ forall r, 0 <= r < SIZE -> let D := domain_of (se_domains st) r in
      zlen (nthZ [] ws r) = zlen (dm_vertex D) /\ forall k, isnode_of D k -> nthZ 0%R (nthZ [] ws r) k = N (gnode D k)
  end.
Definition on_cells (fld : field) : bool := match fld with OnCells _ => true | OnNodes _ => false end.
(** a call of a program that saves [fld]; the ranks write in any order *)
Definition call_of (st : setting) (a : call) (fld : field) : Prop :=
  ca_cells a = on_cells fld /\ Permutation (ca_order a) (range SIZE) /\ passed st fld (ca_values a).
End Files.
