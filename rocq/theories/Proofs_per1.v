(** * Proofs_per1: the set-up of a run on one rank, for any labels. *)
From Coq Require Import Reals Lra Permutation Sorted.
From Verif Require Import Py PyLemmas Model_part Spec_part Proofs_part1 Model_file Properties_file Model_label Proofs_label Model_conn Spec_conn Proofs_conn1 Proofs_conn2 Model_geom Spec_geom
  Model_halo Model_periodic Model_interp Spec_interp Model_comm Model_haloghost Model_domain Spec_domain Model_parallel Spec_parallel Proofs_parallel2.
Open Scope Z_scope.

Lemma combine_labels {A B} (nodes : list A) (lab : list B) : zlen lab = zlen nodes -> map fst (combine nodes lab) = nodes /\ map snd (combine nodes lab) = lab.
Proof.
  intros LL. unfold zlen in LL. assert (LL' : length nodes = length lab) by lia. clear - LL'. revert lab LL'. induction nodes as [|x n IH]; intros [|y m] H; try discriminate; [split; reflexivity|]. injection H as H. destruct (IH m H) as (Q1 & Q2). cbn. rewrite Q1, Q2. auto.
Qed.
Lemma where_none name v : ~ In v name -> where_eq name v = [].
Proof.
  intros H. destruct (where_eq name v) as [|i l] eqn:E; [reflexivity|]. exfalso. assert (HI : In i (where_eq name v)) by (rewrite E; left; reflexivity).
  apply Proofs_bc.In_where in HI as (A & B). apply H. rewrite <- B. apply nthZ_In. exact A.
Qed.
Lemma setup_alone f32 dim cells nodes lab npart0 epart P D : zlen lab = zlen nodes -> first_half f32 dim 1 cells nodes lab [] [] = Ok P ->
  h_nodename (pr_h P) = lab -> ~ In 10 lab -> zlen (pt_ghost (pr_p P)) = zlen nodes -> second_half dim nodes lab (alone (zlen nodes) (zlen cells)) P = Ok D ->
  setup f32 dim 1 cells nodes lab npart0 epart = Ok {| se_domains := [D]; se_comms := []; se_tc := [range (zlen cells)] |}.
Proof.
  intros LL E1 EN N10 LG E2. unfold setup, partition_and_read. cbn [Z.eqb Pos.eqb]. change (range 1) with [0]. cbn [mapM]. rewrite (C08_sequential_file_roundtrip 0 cells nodes lab [] (eq_sym LL)). cbn [bind].
  cbn [mapM bind]. unfold unpack. cbn [mapM md_vertex md_centvol md_nodeid md_halosext md_nodeloctoglob md_loctoglob md_neigh md_nparts].
  change (map (fun n : pt * Z => [px (fst n); py (fst n); pz (fst n); IZR (snd n)]) (combine nodes lab)) with (map node_row (combine nodes lab)).
  rewrite rows_pt, rows_label. cbn [bind mapM Z.eqb Pos.eqb hd]. destruct (combine_labels nodes lab LL) as (-> & ->).
  unfold build_all. cbn [mapM]. unfold begin_rank. cbn [lo_cells lo_vertex lo_label lo_ext lo_node]. rewrite E1. cbn [bind]. change (range 1) with [0]. cbn [mapM].
  match goal with |- context [get [?L] 0] => set (L0 := L) end. change (get [L0] 0) with (Ok L0). change (get [P] 0) with (Ok P). cbn [bind]. unfold exchange_ghosts. cbn [Z.ltb Z.compare Pos.compare Pos.compare_cont]. change (range 1) with [0]. cbn [mapM].
  change (get [brings L0 P] 0) with (Ok (brings L0 P)). cbn [bind].
  assert (EF : finish (brings L0 P) [] = Ok {| ho_ghost := zeros_like [] (zlen nodes); ho_info := zeros_like [] (zlen nodes); ho_size := 0 |}).
  { unfold finish, receive, halo_index, number. cbn [brings hk_nodes hk_ghost]. rewrite EN, (where_none lab 10 N10). cbn [foldM bind]. rewrite LG. unfold zeros_like at 2. rewrite map_map. reflexivity. }
  rewrite EF. cbn [bind]. match goal with |- context [get [?o] 0] => change (get [o] 0) with (Ok o) end. cbn [bind]. unfold end_rank. 
  change (rank_data L0 _) with (alone (zlen nodes) (zlen cells)). change (lo_vertex L0) with nodes. change (lo_label L0) with lab. rewrite E2. reflexivity.
Qed.
