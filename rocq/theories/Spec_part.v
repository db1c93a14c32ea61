(** * Spec_part: vocabulary for the partition properties (C01-C08).
    A reader needs only this file and the record [rankfile] / [partition] of [Model_part]
    to read the theorems of [Properties_part]. *)
From Verif Require Import Py Model_part.
From Coq Require Import Permutation Sorting.Sorted.

(** nodes of cell [c] *)
Definition nodes_of (cells : list (list Z)) (c : Z) : list Z := nthZ [] cells c.
(** [c] is a cell number of the mesh *)
Definition is_cell (cells : list (list Z)) (c : Z) : Prop := 0 <= c < zlen cells.
(** the rank owning cell [c] *)
Definition owner (epart : list Z) (c : Z) : Z := nthZ 0 epart c.
(** two cells share at least one node *)
Definition share_node (cells : list (list Z)) (c c' : Z) : Prop :=
  exists k, In k (nodes_of cells c) /\ In k (nodes_of cells c').

(** A mesh and a partition in the shape meshio / METIS produce. *)
Record wf_input (dim SIZE : Z) (cells : list (list Z)) (nodes : list pt) (ghost npart0 epart : list Z) : Prop := {
  wf_dim : dim = 2 \/ dim = 3;
  wf_size : 1 <= SIZE;
  wf_rows : forall c, is_cell cells c -> zlen (nodes_of cells c) = dim + 1;
  wf_nodes : forall c k, is_cell cells c -> In k (nodes_of cells c) -> 0 <= k < zlen nodes;
  wf_epart_len : zlen epart = zlen cells;
  wf_epart : forall c, is_cell cells c -> 0 <= owner epart c < SIZE;
  wf_npart_len : zlen npart0 = zlen nodes;
  wf_ghost_len : zlen ghost = zlen nodes }.

(** METIS's contract for node owners: a node touched by some cell is given to the owner of a cell touching it. *)
Definition metis_contract (cells : list (list Z)) (nodes : list pt) (npart0 epart : list Z) : Prop :=
  forall c k, is_cell cells c -> In k (nodes_of cells c) ->
  exists c', is_cell cells c' /\ In k (nodes_of cells c') /\ nthZ 0 npart0 k = owner epart c'.

(** file of rank i *)
Definition file_of (d : rankfile) (pa : partition) (i : Z) : rankfile := nthZ d (pa_files pa) i.
Definition empty_file : rankfile :=
  {| rf_elements := []; rf_nodes := []; rf_halosint := []; rf_halosext := []; rf_centvol := [];
     rf_loctoglob := []; rf_nodeloctoglob := []; rf_neigh := []; rf_neighcount := [] |}.

(** [block labels counts l j]: the sub-list of [l] belonging to label [j] when [l] is cut into consecutive
    pieces of the given lengths. *)
Fixpoint block {A} (labels counts : list Z) (l : list A) (j : Z) : list A :=
  match labels, counts with
  | p :: labels', n :: counts' =>
      if p =? j then firstn (Z.to_nat n) l else block labels' counts' (skipn (Z.to_nat n) l) j
  | _, _ => []
  end.
(** number announced for label [j] (0 when absent) *)
Fixpoint count_for (labels counts : list Z) (j : Z) : Z :=
  match labels, counts with
  | p :: labels', n :: counts' => if p =? j then n else count_for labels' counts' j
  | _, _ => 0
  end.

(** ** The intended content of the files *)
(** cells owned by rank i, in increasing order *)
Definition owned (cells : list (list Z)) (epart : list Z) (i : Z) : list Z :=
  filter (fun c => owner epart c =? i) (range (zlen cells)).
(** does cell [c] share a node with some cell owned by rank [j]? *)
Definition touches_rank (cells : list (list Z)) (epart : list Z) (c j : Z) : bool :=
  existsb (fun c' => (owner epart c' =? j) && existsb (fun k => mem k (nodes_of cells c')) (nodes_of cells c))
          (range (zlen cells)).
(** the cells rank i must send to rank j: its own cells touching a cell of j, in increasing order *)
Definition to_send (cells : list (list Z)) (epart : list Z) (i j : Z) : list Z :=
  filter (fun c => (owner epart c =? i) && touches_rank cells epart c j) (range (zlen cells)).
(** ranks i and j own cells sharing a node *)
Definition adjacent (cells : list (list Z)) (epart : list Z) (i j : Z) : Prop :=
  exists c c', is_cell cells c /\ is_cell cells c' /\ owner epart c = i /\ owner epart c' = j /\ share_node cells c c'.

(** centre and measure of a cell given by its node numbers (textbook formulas):
    barycentre; half the absolute 2D cross product / a sixth of the absolute determinant *)
From Coq Require Import Reals.
Open Scope R_scope.
Definition origin : pt := P3 0 0 0.
Definition coord (nodes : list pt) (k : Z) : pt := nthZ origin nodes k.
Definition cell_row_2d (nodes : list pt) (r : list Z) : list R :=
  let a := coord nodes (nthZ 0%Z r 0%Z) in let b := coord nodes (nthZ 0%Z r 1%Z) in let c := coord nodes (nthZ 0%Z r 2%Z) in
  [ (px a + px b + px c) / 3; (py a + py b + py c) / 3; 0;
    Rabs ((px b - px a) * (py c - py a) - (px c - px a) * (py b - py a)) / 2 ].
Definition cell_row_3d (nodes : list pt) (r : list Z) : list R :=
  let a := coord nodes (nthZ 0%Z r 0%Z) in let b := coord nodes (nthZ 0%Z r 1%Z) in
  let c := coord nodes (nthZ 0%Z r 2%Z) in let d := coord nodes (nthZ 0%Z r 3%Z) in
  let ux := px b - px a in let uy := py b - py a in let uz := pz b - pz a in
  let vx := px c - px a in let vy := py c - py a in let vz := pz c - pz a in
  let wx := px d - px a in let wy := py d - py a in let wz := pz d - pz a in
  [ (px a + px b + px c + px d) / 4; (py a + py b + py c + py d) / 4; (pz a + pz b + pz c + pz d) / 4;
    Rabs (ux * vy * wz + uy * vz * wx + uz * vx * wy - uz * vy * wx - uy * vx * wz - ux * vz * wy) / 6 ].
Definition cell_row (dim : Z) (nodes : list pt) (r : list Z) : list R :=
  if (dim =? 2)%Z then cell_row_2d nodes r else cell_row_3d nodes r.
Open Scope Z_scope.

(** The intended content of rank i's file. *)
Record file_ok (dim : Z) (cells : list (list Z)) (nodes : list pt) (ghost epart : list Z) (i : Z) (f : rankfile) : Prop := {
  fo_l2g : rf_loctoglob f = owned cells epart i;
  fo_nodup : NoDup (rf_nodeloctoglob f);
  fo_nodes_in : forall k, In k (rf_nodeloctoglob f) <->
                  exists c, is_cell cells c /\ owner epart c = i /\ In k (nodes_of cells c);
  fo_elements : Forall2 (fun c e => map (nthZ (-1) (rf_nodeloctoglob f)) e = nodes_of cells c /\
                                    Forall (fun l => 0 <= l < zlen (rf_nodeloctoglob f)) e)
                        (rf_loctoglob f) (rf_elements f);
  fo_nodes : rf_nodes f = map (fun k => (coord nodes k, nthZ 0 ghost k)) (rf_nodeloctoglob f);
  fo_neigh_sorted : StronglySorted Z.lt (rf_neigh f);
  fo_neigh_in : forall j, In j (rf_neigh f) <-> j <> i /\ adjacent cells epart i j;
  fo_halosint : rf_halosint f = concat (map (to_send cells epart i) (rf_neigh f));
  fo_halosext : rf_halosext f =
     concat (map (fun j => map (fun c => c :: nodes_of cells c) (to_send cells epart j i)) (rf_neigh f));
  fo_count : rf_neighcount f = map (fun j => zlen (to_send cells epart i j)) (rf_neigh f);
  fo_centvol : rf_centvol f = map (fun r => cell_row dim nodes (tl r)) (rf_halosext f) }.
