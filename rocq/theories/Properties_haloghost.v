(** * Properties_haloghost: C67, the exchange of the ghosts of halo nodes.
    Vocabulary: [Spec_haloghost]. *)
From Coq Require Import Reals Lra.
From Verif Require Import Py PyLemmas Model_part Model_geom Model_halo Model_interp Model_haloghost Spec_haloghost Proofs_haloghost.
Open Scope Z_scope.

(** C67.  For every number of ranks whose tables fit together, update_haloghost_info succeeds on all the ranks (no KeyError, no index out of
    range, no message cut short), and afterwards every halo node of every rank lists exactly the ghosts the other ranks have at the same
    node: each once, in the order of the ranks, with its point, name and face centre and the halo cell it belongs to. *)
Theorem C67_halo_ghosts : forall SIZE nparts Hs, wf_exchange SIZE nparts Hs ->
  exists outs, exchange_ghosts SIZE nparts Hs = Ok outs /\ zlen outs = SIZE /\
    forall r, 0 <= r < SIZE -> exists o, get outs r = Ok o /\ exchanged SIZE Hs r o.
Proof.
  intros SIZE nparts Hs WE. destruct (exchange_ok SIZE nparts Hs WE) as (outs & E & HL & H). exists outs. split; [exact E|]. split; [exact HL|].
  intros r Hr. destruct (H r Hr) as (o & Eo & Ho). exists o. split; [|exact Ho]. rewrite (get_nthZ {| ho_ghost := []; ho_info := []; ho_size := 0 |}) by lia. rewrite Eo. reflexivity.
Qed.
Print Assumptions C67_halo_ghosts.

(** ** The unit square cut along the diagonal, one triangle for each of two ranks. *)
(** rank 0: nodes 0 1 2, cell 0, sides y = 0 (label 4) and x = 1 (label 2); rank 1: nodes 0 2 3, cell 1, sides y = 1 (label 3) and x = 0 (label 1);
    the halo nodes are the ends of the diagonal *)
Definition ghost_low : nodeghost := {| ng_pt := P3 (2 / 3) (-1 / 3) 0; ng_cell := 0; ng_name := 4; ng_face := 0; ng_fcenter := P3 (1 / 2) 0 0; ng_fnormal := P3 0 (-1) 0 |}.
Definition ghost_right : nodeghost := {| ng_pt := P3 (4 / 3) (1 / 3) 0; ng_cell := 0; ng_name := 2; ng_face := 1; ng_fcenter := P3 1 (1 / 2) 0; ng_fnormal := P3 1 0 0 |}.
Definition ghost_left : nodeghost := {| ng_pt := P3 (-1 / 3) (2 / 3) 0; ng_cell := 0; ng_name := 1; ng_face := 2; ng_fcenter := P3 0 (1 / 2) 0; ng_fnormal := P3 (-1) 0 0 |}.
Definition ghost_top : nodeghost := {| ng_pt := P3 (1 / 3) (4 / 3) 0; ng_cell := 0; ng_name := 3; ng_face := 1; ng_fcenter := P3 (1 / 2) 1 0; ng_fnormal := P3 0 1 0 |}.
Definition half0 : hgrank := {| hk_nodes := [0; 2]; hk_ghost := [[ghost_low]; [ghost_low; ghost_right]; [ghost_right]]; hk_node := [0; 1; 2]; hk_cell := [0]; hk_neigh := [1];
  hk_nodehalo := [[0; 1]; [-1; 0]; [0; 1]]; hk_ext := [[1; 0; 2; 3]] |}.
Definition half1 : hgrank := {| hk_nodes := [0; 1]; hk_ghost := [[ghost_left]; [ghost_top]; [ghost_top; ghost_left]]; hk_node := [0; 2; 3]; hk_cell := [1]; hk_neigh := [0];
  hk_nodehalo := [[0; 1]; [0; 1]; [-1; 0]]; hk_ext := [[0; 0; 1; 2]] |}.
Definition halves : list hgrank := [half0; half1].
Definition halves_parts : list (list Z) := [[0; 1]; [0]; [0; 1]; [1]].
Ltac two H r := let H' := fresh in assert (H' : r = 0 \/ r = 1) by lia; destruct H' as [-> | ->].
Theorem C67_two_halves : wf_exchange 2 halves_parts halves.
Proof.
  constructor.
  - split; [lia | reflexivity].
  - intros r Hr. two Hr r.
    + change (rank_of halves 0) with half0. cbv zeta. split; [repeat constructor; cbn; lia|]. split; [repeat constructor; cbn; lia|]. split; [reflexivity|]. split; [reflexivity|].
      intros i [<-|[<-|[]]]; (split; [cbn; lia|]); intros e [<-|[]]; cbn; lia.
    + change (rank_of halves 1) with half1. cbv zeta. split; [repeat constructor; cbn; lia|]. split; [repeat constructor; cbn; lia|]. split; [reflexivity|]. split; [reflexivity|].
      intros i [<-|[<-|[]]]; (split; [cbn; lia|]); intros e [<-|[]]; cbn; lia.
  - intros r i Hr Hi. two Hr r; destruct Hi as [<-|[<-|[]]]; cbv zeta;
      (split; [vm_compute; split; congruence|]); (split; [change (NoDup [0; 1]); repeat constructor; cbn; lia|]); (split; [vm_compute; tauto|]); intros p Hp; change (In p [0; 1]) in Hp; destruct Hp as [<-|[<-|[]]]; (split; [lia|]); intros N; try lia; vm_compute; tauto.
  - intros r p Hr Hp. two Hr r; vm_compute in Hp; destruct Hp as [<-|[]]; lia.
  - intros r Hr. two Hr r; cbv zeta; (split; [vm_compute; apply NoDup_cons; [intros [] | apply NoDup_nil]|]); intros i [<-|[<-|[]]]; exists [0], []; (split; [reflexivity|]);
      (split; [intros h [<-|[]]; split; [vm_compute; split; congruence | vm_compute; discriminate]|]); intros s e Hs N He; two Hs s; try lia; vm_compute in He; destruct He as [<-|[]]; exists 0; (split; [left; reflexivity|]); (split; [vm_compute; split; congruence | reflexivity]).
Qed.
Theorem C67_two_halves_received : exists a b, exchange_ghosts 2 halves_parts halves = Ok [a; b] /\
  map (map g_name) (ho_ghost a) = [[1]; []; [3]] /\ map (map g_name) (ho_ghost b) = [[4]; [2]; []] /\
  ho_info a = [[P3 0 (1 / 2) 0]; []; [P3 (1 / 2) 1 0]] /\ ho_size a = 2 /\ ho_size b = 2.
Proof. eexists. eexists. split; [reflexivity|]. repeat split. Qed.
