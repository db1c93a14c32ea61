(** * Properties_file: C08, the mesh files read back exactly what readmesh computed. *)
From Coq Require Import String Reals.
From Verif Require Import Py Model_part Model_file Spec_part Proofs_file Properties_part.
Open Scope Z_scope.

(** every rank of a parallel run *)
Theorem C08_rank_files_roundtrip : forall dim SIZE cells nodes ghost npart0 epart pa,
  1 < SIZE ->
  wf_input dim SIZE cells nodes ghost npart0 epart ->
  metis_contract cells nodes npart0 epart ->
  readmesh_parallel dim SIZE cells nodes ghost npart0 epart = Ok pa ->
  forall i, 0 <= i < SIZE ->
    let f := file_of empty_file pa i in
    exists file md, write_file pa i = Ok file /\ read_mesh_file SIZE i file (write_master pa) = Ok md /\
      md_tc md = (if i =? 0 then pa_tc pa else []) /\
      md_nodeid md = rf_elements f /\
      md_vertex md = map (fun n => [px (fst n); py (fst n); pz (fst n); IZR (snd n)]) (rf_nodes f) /\
      md_halosint md = rf_halosint f /\ md_halosext md = rf_halosext f /\ md_centvol md = rf_centvol f /\
      md_loctoglob md = rf_loctoglob f /\ md_nodeloctoglob md = rf_nodeloctoglob f /\
      md_neigh md = [rf_neigh f; rf_neighcount f] /\ md_nparts md = pa_nparts pa /\
      (forall c j, zget_opt (md_globtoloc md) c = Some j <-> 0 <= j < zlen (rf_loctoglob f) /\ nthZ (-1) (rf_loctoglob f) j = c).
Proof. exact c08. Qed.
Print Assumptions C08_rank_files_roundtrip.

(** a sequential run *)
Theorem C08_sequential_file_roundtrip : forall rank cells nodes ghost master,
  zlen nodes = zlen ghost ->
  read_mesh_file 1 rank (write_seq cells nodes ghost) master
  = Ok {| md_tc := range (zlen cells); md_nodeid := cells;
          md_vertex := map (fun n => [px (fst n); py (fst n); pz (fst n); IZR (snd n)]) (combine nodes ghost);
          md_halosint := []; md_halosext := []; md_centvol := []; md_globtoloc := []; md_loctoglob := [];
          md_nodeloctoglob := []; md_neigh := []; md_nparts := [] |}.
Proof. exact read_write_seq. Qed.
Print Assumptions C08_sequential_file_roundtrip.

(** the partition example of Properties_part meets the premises; rank 1's file is read back *)
Example ex_file : exists pa, readmesh_parallel 2 3 ex_cells ex_nodes ex_ghost ex_npart ex_epart = Ok pa /\
  exists file md, write_file pa 1 = Ok file /\ read_mesh_file 3 1 file (write_master pa) = Ok md /\
    md_loctoglob md = [1] /\ md_neigh md = [[0; 2]; [1; 1]] /\ md_halosext md = [[0; 0; 1; 2]; [2; 3; 4; 5]].
Proof.
  destruct ex_run as (pa & E & A & B & C & D). exists pa. split; [exact E|].
  destruct (C08_rank_files_roundtrip _ _ _ _ _ _ _ _ (eq_refl : 1 < 3) ex_wf ex_contract E 1 ltac:(lia)) as (file & md & W & Rd & H).
  exists file, md. split; [exact W|]. split; [exact Rd|].
  assert (E2 : match readmesh_parallel 2 3 ex_cells ex_nodes ex_ghost ex_npart ex_epart with Ok pa =>
     (match write_file pa 1 with Ok file => match read_mesh_file 3 1 file (write_master pa) with
        Ok md => Some (md_loctoglob md, md_neigh md, md_halosext md) | _ => None end | _ => None end) | Err _ => None end
     = Some ([1], [[0; 2]; [1; 1]], [[0; 0; 1; 2]; [2; 3; 4; 5]])) by reflexivity.
  rewrite E, W, Rd in E2. injection E2 as -> -> ->. auto.
Qed.
