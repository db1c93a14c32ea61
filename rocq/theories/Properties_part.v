(** * Properties_part: C01-C07 (partitioning), C41 (solution scatter), C42 (halo exchange).
    Vocabulary: [Spec_part].  The functions are [readmesh_parallel] (readmesh with SIZE > 1), [prepare_comm],
    [update_halo_value], [solve_scatter].  [pa] is what readmesh wrote; [file_of _ pa i] the file of rank i. *)
From Verif Require Import Py Model_part Model_comm Spec_part Proofs_part3 Proofs_part4.
From Coq Require Import Sorting.Sorted Permutation Reals.
Open Scope Z_scope.

Theorem C01_each_cell_owned_once : forall dim SIZE cells nodes ghost npart0 epart pa,
  wf_input dim SIZE cells nodes ghost npart0 epart ->
  metis_contract cells nodes npart0 epart ->
  readmesh_parallel dim SIZE cells nodes ghost npart0 epart = Ok pa ->
  forall i, 0 <= i < SIZE ->
    let l2g := rf_loctoglob (file_of empty_file pa i) in
    (forall c, is_cell cells c -> count_occ Z.eq_dec l2g c = if i =? owner epart c then 1%nat else 0%nat) /\
    (forall c, In c l2g -> is_cell cells c) /\ StronglySorted Z.lt l2g.
Proof. exact c01. Qed.
Print Assumptions C01_each_cell_owned_once.

Theorem C02_GtoL_is_a_permutation : forall dim SIZE cells nodes ghost npart0 epart pa,
  wf_input dim SIZE cells nodes ghost npart0 epart ->
  metis_contract cells nodes npart0 epart ->
  readmesh_parallel dim SIZE cells nodes ghost npart0 epart = Ok pa ->
  Permutation (pa_tc pa) (range (zlen cells)) /\
  pa_tc pa = concat (map rf_loctoglob (pa_files pa)).
Proof. exact c02. Qed.
Print Assumptions C02_GtoL_is_a_permutation.

Theorem C03_local_meshes_faithful : forall dim SIZE cells nodes ghost npart0 epart pa,
  wf_input dim SIZE cells nodes ghost npart0 epart ->
  metis_contract cells nodes npart0 epart ->
  readmesh_parallel dim SIZE cells nodes ghost npart0 epart = Ok pa ->
  forall i, 0 <= i < SIZE ->
    let f := file_of empty_file pa i in
    NoDup (rf_nodeloctoglob f) /\
    (forall k, In k (rf_nodeloctoglob f) <->
       exists c, is_cell cells c /\ owner epart c = i /\ In k (nodes_of cells c)) /\
    Forall2 (fun c e => map (nthZ (-1) (rf_nodeloctoglob f)) e = nodes_of cells c /\
                        Forall (fun l => 0 <= l < zlen (rf_nodeloctoglob f)) e)
            (rf_loctoglob f) (rf_elements f) /\
    rf_nodes f = map (fun k => (coord nodes k, nthZ 0 ghost k)) (rf_nodeloctoglob f).
Proof. exact c03. Qed.
Print Assumptions C03_local_meshes_faithful.

Theorem C04_send_lists_match_receive_lists : forall dim SIZE cells nodes ghost npart0 epart pa,
  wf_input dim SIZE cells nodes ghost npart0 epart ->
  metis_contract cells nodes npart0 epart ->
  readmesh_parallel dim SIZE cells nodes ghost npart0 epart = Ok pa ->
  forall i j, 0 <= i < SIZE -> 0 <= j < SIZE ->
    let f r := file_of empty_file pa r in
    let announced s r := count_for (rf_neigh (f s)) (rf_neighcount (f s)) r in
    In j (rf_neigh (f i)) ->
    block (rf_neigh (f i)) (rf_neighcount (f i)) (rf_halosint (f i)) j
    = map (hd 0) (block (rf_neigh (f j)) (map (fun s => announced s j) (rf_neigh (f j))) (rf_halosext (f j)) i)
    /\ block (rf_neigh (f i)) (rf_neighcount (f i)) (rf_halosint (f i)) j <> [].
Proof. exact c04. Qed.
Print Assumptions C04_send_lists_match_receive_lists.

Theorem C05_halo_complete_and_exact : forall dim SIZE cells nodes ghost npart0 epart pa,
  wf_input dim SIZE cells nodes ghost npart0 epart ->
  metis_contract cells nodes npart0 epart ->
  readmesh_parallel dim SIZE cells nodes ghost npart0 epart = Ok pa ->
  forall i, 0 <= i < SIZE ->
    let hext := rf_halosext (file_of empty_file pa i) in
    (forall row, In row hext <-> exists c, row = c :: nodes_of cells c /\ is_cell cells c /\ owner epart c <> i /\
        exists c', is_cell cells c' /\ owner epart c' = i /\ share_node cells c c') /\
    NoDup (map (hd (-1)) hext) /\
    rf_centvol (file_of empty_file pa i) = map (fun r => cell_row dim nodes (tl r)) hext.
Proof. exact c05. Qed.
Print Assumptions C05_halo_complete_and_exact.

Theorem C06_neighbours_symmetric : forall dim SIZE cells nodes ghost npart0 epart pa,
  wf_input dim SIZE cells nodes ghost npart0 epart ->
  metis_contract cells nodes npart0 epart ->
  readmesh_parallel dim SIZE cells nodes ghost npart0 epart = Ok pa ->
  forall i, 0 <= i < SIZE ->
    let f r := file_of empty_file pa r in
    StronglySorted Z.lt (rf_neigh (f i)) /\
    ~ In i (rf_neigh (f i)) /\
    (forall j, In j (rf_neigh (f i)) -> 0 <= j < SIZE /\ In i (rf_neigh (f j))) /\
    (forall j, In j (rf_neigh (f i)) <-> j <> i /\ exists c c', is_cell cells c /\ is_cell cells c' /\
        owner epart c = i /\ owner epart c' = j /\ share_node cells c c') /\
    rf_neighcount (f i) = map (fun j => zlen (block (rf_neigh (f i)) (rf_neighcount (f i)) (rf_halosint (f i)) j)) (rf_neigh (f i)) /\
    zlen (rf_halosint (f i)) = fold_right Z.add 0 (rf_neighcount (f i)).
Proof. exact c06. Qed.
Print Assumptions C06_neighbours_symmetric.

Theorem C07_partition_writing_succeeds : forall dim SIZE cells nodes ghost npart0 epart,
  wf_input dim SIZE cells nodes ghost npart0 epart ->
  metis_contract cells nodes npart0 epart ->
  exists pa, readmesh_parallel dim SIZE cells nodes ghost npart0 epart = Ok pa /\
    pa_tc pa = concat (map (owned cells epart) (range SIZE)) /\
    zlen (pa_files pa) = SIZE /\
    (forall i, 0 <= i < SIZE -> file_ok dim cells nodes ghost epart i (file_of empty_file pa i)) /\
    zlen (pa_nparts pa) = zlen nodes /\
    (forall k c, is_cell cells c -> In k (nodes_of cells c) -> NoDup (nthZ [] (pa_nparts pa) k) /\
       forall p, In p (nthZ [] (pa_nparts pa) k) <-> exists c', is_cell cells c' /\ In k (nodes_of cells c') /\ owner epart c' = p).
Proof. exact readmesh_parallel_ok. Qed.
Print Assumptions C07_partition_writing_succeeds.

(** two triangles sharing an edge, on two ranks, plus a third triangle touching them in one node only *)
Definition ex_cells : list (list Z) := [[0; 1; 2]; [0; 2; 3]; [3; 4; 5]].
Definition ex_nodes : list pt := [P3 0 0 0; P3 1 0 0; P3 1 1 0; P3 0 1 0; P3 0 2 0; P3 (-1) 1 0].
Definition ex_ghost : list Z := [1; 2; 3; 4; 1; 2].
Definition ex_epart : list Z := [0; 1; 2].
Definition ex_npart : list Z := [0; 0; 1; 1; 2; 2].

Ltac cell_cases c H :=
  let Hc := fresh in
  assert (Hc : c = 0 \/ c = 1 \/ c = 2) by (unfold is_cell in H; cbn in H; lia);
  clear H; destruct Hc as [->|[->| ->]].

Example ex_wf : wf_input 2 3 ex_cells ex_nodes ex_ghost ex_npart ex_epart.
Proof.
  constructor; try reflexivity; try (left; reflexivity); try lia.
  - intros c H. cell_cases c H; reflexivity.
  - intros c k H Hk. change (zlen ex_nodes) with 6; cell_cases c H; cbv in Hk; lia.
  - intros c H. cell_cases c H; vm_compute; intuition discriminate.
Qed.
Example ex_contract : metis_contract ex_cells ex_nodes ex_npart ex_epart.
Proof.
  intros c k H Hk. assert (Hk' : k = 0 \/ k = 1 \/ k = 2 \/ k = 3 \/ k = 4 \/ k = 5) by (cell_cases c H; cbv in Hk; lia).
  clear H Hk. destruct Hk' as [->|[->|[->|[->|[->| ->]]]]];
  [exists 0 | exists 0 | exists 1 | exists 1 | exists 2 | exists 2]; (split; [unfold is_cell; vm_compute; intuition discriminate|]; split; [vm_compute; tauto|vm_compute; reflexivity]).
Qed.
(** what the model computes for it: rank 1's halo lists and neighbours *)
Example ex_run : exists pa, readmesh_parallel 2 3 ex_cells ex_nodes ex_ghost ex_npart ex_epart = Ok pa /\
  map rf_loctoglob (pa_files pa) = [[0]; [1]; [2]] /\ map rf_neigh (pa_files pa) = [[1]; [0; 2]; [1]] /\
  map rf_halosint (pa_files pa) = [[0]; [1; 1]; [2]] /\ map rf_halosext (pa_files pa) = [[[1; 0; 2; 3]]; [[0; 0; 1; 2]; [2; 3; 4; 5]]; [[1; 0; 2; 3]]].
Proof.
  destruct (C07_partition_writing_succeeds _ _ _ _ _ _ _ ex_wf ex_contract) as (pa & E & _). exists pa. split; [exact E|].
  assert (E2 : match readmesh_parallel 2 3 ex_cells ex_nodes ex_ghost ex_npart ex_epart with Ok pa =>
      Some (map rf_loctoglob (pa_files pa), map rf_neigh (pa_files pa), map rf_halosint (pa_files pa), map rf_halosext (pa_files pa)) | Err _ => None end
      = Some ([[0]; [1]; [2]], [[1]; [0; 2]; [1]], [[0]; [1; 1]; [2]], [[[1; 0; 2; 3]]; [[0; 0; 1; 2]; [2; 3; 4; 5]]; [[1; 0; 2; 3]]])).
  { reflexivity. }
  rewrite E in E2. injection E2 as A B C D. auto.
Qed.

(** Without the partitioner's contract the same call raises KeyError: node 2 is given to rank 2, none of whose cells has it. *)
Theorem C07_contract_is_needed_refuted :
  exists dim SIZE cells nodes ghost npart0 epart,
    wf_input dim SIZE cells nodes ghost npart0 epart /\ (forall k, In k npart0 -> 0 <= k < SIZE) /\
    readmesh_parallel dim SIZE cells nodes ghost npart0 epart = Err KeyError.
Proof.
  exists 2, 3, ex_cells, ex_nodes, ex_ghost, [0; 0; 2; 1; 2; 2], ex_epart. split; [|split].
  - constructor; try reflexivity; try (left; reflexivity); try lia.
    + intros c H. cell_cases c H; reflexivity.
    + intros c k H Hk. change (zlen ex_nodes) with 6; cell_cases c H; cbv in Hk; lia.
    + intros c H. cell_cases c H; vm_compute; intuition discriminate.
  - cbn; intros; lia.
  - reflexivity.
Qed.
Print Assumptions C07_contract_is_needed_refuted.

Theorem C41_solution_scatter : forall (V : Type) (d : V) dim SIZE cells nodes ghost npart0 epart pa (x buf : list V),
  wf_input dim SIZE cells nodes ghost npart0 epart ->
  metis_contract cells nodes npart0 epart ->
  readmesh_parallel dim SIZE cells nodes ghost npart0 epart = Ok pa ->
  let f r := file_of empty_file pa r in
  zlen x = zlen cells -> zlen buf = zlen cells ->
  exists parts, solve_scatter x buf (pa_tc pa) (map (fun f => zlen (rf_loctoglob f)) (pa_files pa)) (zlen cells) = Ok parts /\
    zlen parts = SIZE /\
    forall r, 0 <= r < SIZE -> zlen (nthZ [] parts r) = zlen (rf_loctoglob (f r)) /\
      forall j, 0 <= j < zlen (rf_loctoglob (f r)) ->
        nthZ d (nthZ [] parts r) j = nthZ d x (nthZ (-1) (rf_loctoglob (f r)) j).
Proof. exact c41. Qed.
Print Assumptions C41_solution_scatter.

Theorem C42_halo_exchange_delivers_owner_values :
  forall (V : Type) (d : V) dim SIZE cells nodes ghost npart0 epart pa (w : list (list V)),
  wf_input dim SIZE cells nodes ghost npart0 epart ->
  metis_contract cells nodes npart0 epart ->
  readmesh_parallel dim SIZE cells nodes ghost npart0 epart = Ok pa ->
  let f r := file_of empty_file pa r in
  zlen w = SIZE -> (forall r, 0 <= r < SIZE -> zlen (nthZ [] w r) = zlen (rf_loctoglob (f r))) ->
  exists comms halo, prepare_comm SIZE (pa_files pa) = Ok comms /\ update_halo_value SIZE comms w = Ok halo /\
    zlen halo = SIZE /\
    forall r, 0 <= r < SIZE ->
      zlen (nthZ [] halo r) = zlen (rf_halosext (f r)) /\
      forall k, 0 <= k < zlen (rf_halosext (f r)) ->
      let c := hd (-1) (nthZ [] (rf_halosext (f r)) k) in
      exists o l, 0 <= o < SIZE /\ o <> r /\ 0 <= l < zlen (rf_loctoglob (f o)) /\
                  nthZ (-1) (rf_loctoglob (f o)) l = c /\ nthZ d (nthZ [] halo r) k = nthZ d (nthZ [] w o) l.
Proof. exact c42. Qed.
Print Assumptions C42_halo_exchange_delivers_owner_values.

(** the premises of C41/C42 on the example: values 10, 20, 30 held by the three owners *)
Example ex_exchange : match readmesh_parallel 2 3 ex_cells ex_nodes ex_ghost ex_npart ex_epart with
  | Ok pa => (do comms <- prepare_comm 3 (pa_files pa); update_halo_value 3 comms [[10]; [20]; [30]]) = Ok [[20]; [10; 30]; [20]]
             /\ solve_scatter [7; 8; 9] [0; 0; 0] (pa_tc pa) (map (fun f => zlen (rf_loctoglob f)) (pa_files pa)) 3 = Ok [[7]; [8]; [9]]
  | Err _ => False end.
Proof. split; reflexivity. Qed.
