(** * Examples_bc: concrete cases for C35-C37, C51, and counterexamples. *)
From Verif Require Import Py PyLemmas Model_part Model_label Model_conn Model_geom Spec_geom Model_interp Spec_interp Model_bc Spec_bc Proofs_conn1 Proofs_label Proofs_bc Proofs_bc2 Properties_bc.
From Coq Require Import Permutation Lra ZifyBool Sorted.
Open Scope Z_scope.

(** the unit square cut into two triangles: faces 0 (right), 1 (diagonal), 2 (bottom), 3 (upper), 4 (left) *)
Definition ex_D : bcdom := {| bd_dim := 2; bd_nbcells := 2; bd_nbnodes := 4; bd_nbhalos := 0; bd_sizehg := 0; bd_name := [2; 0; 4; 3; 1];
  bd_fcenter := [P3 1 (/2) 0; P3 (/2) (/2) 0; P3 (/2) 0 0; P3 (/2) 1 0; P3 0 (/2) 0]; bd_cellid := [[0; -1]; [0; 1]; [0; -1]; [1; -1]; [1; -1]];
  bd_oldname := [1; 2; 2; 1]; bd_vertex := [P3 0 0 0; P3 1 0 0; P3 1 1 0; P3 0 1 0]; bd_hg := [[]; []; []; []]; bd_hginfo := [[]; []; []; []]; bd_halonodes := [] |}.
Ltac five f Hf := let H := fresh in assert (H : f = 0 \/ f = 1 \/ f = 2 \/ f = 3 \/ f = 4) by (change (zlen (bd_name ex_D)) with 5 in Hf; lia); destruct H as [-> | [-> | [-> | [-> | ->]]]].
Lemma ex_wf : wf_bcdom ex_D.
Proof.
  constructor; try (cbn; lia); try (repeat split; reflexivity).
  - intros f Hf. five f Hf; (split; [reflexivity | split; [discriminate | reflexivity]]).
  - intros i Hi. change (bd_nbnodes ex_D) with 4 in Hi. assert (i = 0 \/ i = 1 \/ i = 2 \/ i = 3) as [-> | [-> | [-> | ->]]] by lia; (split; [reflexivity | intros e []]).
  - intros l H. destruct l; cbn in *; lia.
  - intros l HL H. cbn in HL. destruct HL as [<-|[<-|[<-|[<-|[]]]]]; cbn in *; lia.
Qed.
Definition ex_bc := [(LIn, BDirichlet); (LBottom, BDirichlet); (LOut, BNeumann); (LUpper, BNonslip)].
Definition ex_vs := [(LIn, VNum 3); (LBottom, VFun (fun x y z => x + 2 * y)%R)].
Example C35_settings_example : wf_bcdom ex_D /\ bc_settings ex_D ex_bc ex_vs /\ op_ok ex_D (SetCell [5%R; 6%R]).
Proof.
  split; [exact ex_wf|]. split; [|reflexivity]. split; [|split; [|split; [|split]]].
  - split. { repeat (constructor; [cbn; intuition discriminate|]). constructor. } intros l t H. cbn in H. destruct H as [H|[H|[H|[H|[]]]]]; injection H as <- <-; cbn; intuition discriminate.
  - split. { intros l t H. cbn in H. destruct H as [H|[H|[H|[H|[]]]]]; injection H as <- <-; (split; [discriminate|]); intros X; cbn in X; lia. }
    intros l H. cbn in H. destruct H as [H|[H|[H|[H|[]]]]]; try discriminate H; injection H as <-; discriminate.
  - intros l H. cbn in *. tauto.
  - cbn. intuition discriminate.
  - intros l i e H [].
Qed.
(** what the theorem gives there: left side 3, bottom 1/2, right side the value of cell 0, upper side minus the value of cell 1 *)
Example C35_example_values : forall v0 v1 v2 g, new_variable ex_D (Some ex_bc) (Some ex_vs) = Ok v0 -> fill_cell v0 [5%R; 6%R] = Ok v1 -> update_ghost_value ex_D v1 = Ok v2 -> ghost_of v2 = Ok g -> g = [5; 0; /2 + 2 * 0; -1 * 6; 3]%R.
Proof. intros v0 v1 v2 g E0 E1 E2 E3. cbv -[Rmult Rplus Ropp Rinv IZR] in E0. injection E0 as <-. cbv -[Rmult Rplus Ropp Rinv IZR] in E1. injection E1 as <-. cbv -[Rmult Rplus Ropp Rinv IZR] in E2. injection E2 as <-. cbv -[Rmult Rplus Ropp Rinv IZR] in E3. injection E3 as <-. reflexivity. Qed.

(** [var.cell = x] (what spsolve and umfpack do, linearsystem.py:355, 369): the neumann ghosts keep following the old array *)
Theorem C35_reassigned_cell_refuted : exists D v0 v2 g f, wf_bcdom D /\ new_variable D None None = Ok v0 /\ update_ghost_value D (assign_cell v0 [5%R; 6%R]) = Ok v2 /\
  cell_of v2 = Ok [5%R; 6%R] /\ ghost_of v2 = Ok g /\ 0 <= f < zlen (bd_name D) /\ In (face_name D f) [1; 2; 3; 4] /\ nthZ 0%R g f <> nthZ 0%R [5%R; 6%R] (left_cell D f).
Proof.
  exists ex_D. destruct (C36_no_dictionary ex_D None ex_wf) as (v0 & E0). exists v0. cbv -[Rmult Rplus Ropp Rinv IZR] in E0. injection E0 as <-.
  eexists. eexists. exists 0. split; [exact ex_wf|]. split; [reflexivity|]. split; [cbv -[Rmult Rplus Ropp Rinv IZR]; reflexivity|]. split; [reflexivity|]. split; [reflexivity|]. split; [split; [discriminate | reflexivity]|]. split; [cbn; tauto|].
  cbv -[Rmult Rplus Ropp Rinv IZR]. lra.
Qed.
Print Assumptions C35_reassigned_cell_refuted.

(** a dirichlet entry after a neumann entry: the names valueface, ... denote the arrays of the variable by then; the prescribed value goes into
    the cell array and the ghost follows the cells: the order of the dictionary matters *)
Theorem C37_order_refuted : exists D bc bc' vs v v' w w' v1 v1' g g' f, wf_bcdom D /\ Permutation bc bc' /\ bc_settings D bc vs /\ bc_known D bc' /\ bc_consistent D bc' vs /\ bc_complete D bc' /\
  new_variable D (Some bc) (Some vs) = Ok v /\ new_variable D (Some bc') (Some vs) = Ok v' /\ cell_of v = Ok w /\ cell_of v' = Ok w' /\ w <> w' /\
  foldM (apply D) [SetCell [5%R; 6%R]; UpdateGhosts] v = Ok v1 /\ foldM (apply D) [SetCell [5%R; 6%R]; UpdateGhosts] v' = Ok v1' /\ ghost_of v1 = Ok g /\ ghost_of v1' = Ok g' /\
  0 <= f < zlen (bd_name D) /\ face_name D f = side_label LOut /\ In (LOut, BDirichlet) bc /\ nthZ 0%R g f <> nthZ 0%R g' f.
Proof.
  exists ex_D, [(LOut, BDirichlet); (LIn, BNeumann); (LBottom, BNeumann); (LUpper, BNeumann)], [(LIn, BNeumann); (LOut, BDirichlet); (LBottom, BNeumann); (LUpper, BNeumann)], [(LOut, VNum 3)].
  assert (KN : bc_known ex_D [(LOut, BDirichlet); (LIn, BNeumann); (LBottom, BNeumann); (LUpper, BNeumann)] /\ bc_known ex_D [(LIn, BNeumann); (LOut, BDirichlet); (LBottom, BNeumann); (LUpper, BNeumann)]).
  { split; (split; [repeat (constructor; [cbn; intuition discriminate|]); constructor|]); intros l t H; cbn in H; destruct H as [H|[H|[H|[H|[]]]]]; injection H as <- <-; cbn; intuition discriminate. }
  assert (CS : bc_consistent ex_D [(LOut, BDirichlet); (LIn, BNeumann); (LBottom, BNeumann); (LUpper, BNeumann)] [(LOut, VNum 3)] /\ bc_consistent ex_D [(LIn, BNeumann); (LOut, BDirichlet); (LBottom, BNeumann); (LUpper, BNeumann)] [(LOut, VNum 3)]).
  { split; (split; [intros l t H; cbn in H; destruct H as [H|[H|[H|[H|[]]]]]; injection H as <- <-; (split; [discriminate|]); intros X; cbn in X; lia|]); intros l H; cbn in H; destruct H as [H|[H|[H|[H|[]]]]]; try discriminate H; injection H as <-; discriminate. }
  eexists. eexists. eexists. eexists. eexists. eexists. eexists. eexists. exists 0.
  split; [exact ex_wf|]. split; [apply perm_swap|]. split. { split; [apply KN|]. split; [apply CS|]. split; [intros l H; cbn in *; tauto|]. split; [cbn; intuition discriminate | intros l i e H []]. }
  split; [apply KN|]. split; [apply CS|]. split; [intros l H; cbn in *; tauto|].
  split; [cbv -[Rmult Rplus Ropp Rinv IZR]; reflexivity|]. split; [cbv -[Rmult Rplus Ropp Rinv IZR]; reflexivity|]. split; [reflexivity|]. split; [reflexivity|]. split; [intros X; injection X; lra|].
  split; [cbv -[Rmult Rplus Ropp Rinv IZR]; reflexivity|]. split; [cbv -[Rmult Rplus Ropp Rinv IZR]; reflexivity|]. split; [reflexivity|]. split; [reflexivity|]. split; [split; [discriminate | reflexivity]|]. split; [reflexivity|]. split; [left; reflexivity|].
  cbv -[Rmult Rplus Ropp Rinv IZR]. lra.
Qed.
Print Assumptions C37_order_refuted.
(** and when a face of that side has a number beyond the cells, the construction fails with IndexError although the dictionary is consistent *)
Theorem C36_order_refuted : exists D bc vs, wf_bcdom D /\ bc_known D bc /\ bc_consistent D bc vs /\ bc_complete D bc /\ new_variable D (Some bc) (Some vs) = Err IndexError.
Proof.
  exists ex_D, [(LOut, BNeumann); (LIn, BDirichlet); (LBottom, BNeumann); (LUpper, BNeumann)], [(LIn, VNum 3)]. split; [exact ex_wf|].
  split; [split; [repeat (constructor; [cbn; intuition discriminate|]); constructor|]; intros l t H; cbn in H; destruct H as [H|[H|[H|[H|[]]]]]; injection H as <- <-; cbn; intuition discriminate|].
  split; [split; [intros l t H; cbn in H; destruct H as [H|[H|[H|[H|[]]]]]; injection H as <- <-; (split; [discriminate|]); intros X; cbn in X; lia|]; intros l H; cbn in H; destruct H as [H|[H|[H|[H|[]]]]]; try discriminate H; injection H as <-; discriminate|].
  split; [intros l H; cbn in *; tauto|]. reflexivity.
Qed.
Print Assumptions C36_order_refuted.

(** a periodic domain: the sides in and out have the labels 11 and 22 *)
Definition per_D : bcdom := {| bd_dim := 2; bd_nbcells := 2; bd_nbnodes := 4; bd_nbhalos := 0; bd_sizehg := 0; bd_name := [22; 0; 4; 3; 11];
  bd_fcenter := bd_fcenter ex_D; bd_cellid := [[0; -1]; [0; 1]; [0; -1]; [1; -1]; [1; -1]];
  bd_oldname := [11; 22; 22; 11]; bd_vertex := bd_vertex ex_D; bd_hg := [[]; []; []; []]; bd_hginfo := [[]; []; []; []]; bd_halonodes := [] |}.
Example C36_periodic_example : wf_bcdom per_D /\ side_periodic per_D LIn /\ ~ side_periodic per_D LUpper /\ ~ bc_consistent per_D [(LIn, BNeumann)] [] /\ default_bc per_D = [(LIn, BPeriodic); (LOut, BPeriodic); (LBottom, BNeumann); (LUpper, BNeumann)].
Proof.
  assert (P : side_periodic per_D LIn) by (cbn; tauto).
  split; [|split; [exact P|]; split; [intros X; cbn in X; lia|]; split; [|reflexivity]].
  - constructor; try (cbn; lia); try (repeat split; reflexivity).
    + intros f Hf. change (zlen (bd_name per_D)) with (zlen (bd_name ex_D)) in Hf. five f Hf; (split; [reflexivity | split; [discriminate | reflexivity]]).
    + intros i Hi. change (bd_nbnodes per_D) with 4 in Hi. assert (i = 0 \/ i = 1 \/ i = 2 \/ i = 3) as [-> | [-> | [-> | ->]]] by lia; (split; [reflexivity | intros e []]).
    + intros l H. destruct l; cbn in *; lia.
    + intros l HL H. cbn in HL. destruct HL as [<-|[<-|[<-|[<-|[]]]]]; cbn in *; lia.
  - intros (C & _). discriminate (proj2 (C LIn BNeumann (or_introl eq_refl)) P).
Qed.
(** two halo nodes seeing the same ghost *)
Example C35_halo_example : let hg := [[{| g_pt := P3 1 2 3; g_cell := 1; g_name := 3; g_last := 0 |}]; [{| g_pt := P3 1 2 3; g_cell := 1; g_name := 3; g_last := 0 |}; gpad]] in
  hg_agree hg [0; 1] /\ (exists e, hg_entry hg [0; 1] e /\ g_last e <> -1) /\ forall e, hg_entry hg [0; 1] e -> g_last e <> -1 -> 0 <= g_last e < zlen [0%R] /\ 0 <= g_cell e < zlen [7%R; 5%R].
Proof.
  intros hg. assert (HE : forall e, hg_entry hg [0; 1] e -> e = gpad \/ e = {| g_pt := P3 1 2 3; g_cell := 1; g_name := 3; g_last := 0 |}).
  { intros e (i & [<-|[<-|[]]] & H); [destruct H as [<-|[]]; auto | destruct H as [<-|[<-|[]]]; auto]. }
  split; [|split].
  - intros e e' H1 H2. apply HE in H1, H2. destruct H1 as [-> | ->], H2 as [-> | ->]; cbn; intros; try discriminate; auto.
  - eexists. split; [exists 0; split; [left; reflexivity | left; reflexivity]|]. discriminate.
  - intros e H1 N. apply HE in H1. destruct H1 as [-> | ->]; [contradiction N; reflexivity|]. cbn. lia.
Qed.
