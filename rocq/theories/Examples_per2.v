(** * Examples_per2: the files of the transport program on the torus of Examples_per (C91, C93). *)
From Coq Require Import Reals Lra Permutation.
From Verif Require Import Py PyLemmas Model_part Model_conn Spec_conn Model_geom Spec_geom Model_bc Model_domain Model_parallel Spec_parallel Model_run Spec_run Spec_per Model_save Spec_save Model_per2 Properties_per2.
From Verif Require Import Examples_per.
From Verif Require Examples_run3 Examples_periodic.
Import Examples_run3(ch, ch_v).
Import Examples_periodic(single).
Open Scope Z_scope.

(** four triangles, periodic in both directions, cfl = 1: whatever the velocity, every file the program leaves shows values between 0 and 3 if the start is 3, 0, 1, 2 *)
Theorem C93_torus : forall U, exists st n, setup single 2 1 ch ch_v tor_labels [] [0; 0; 0; 0] = Ok st /\ forall fuel F0, (n <= fuel)%nat ->
  exists time hs F, periodic_saving_program fuel around_bc [] U 1 5 (fun _ => [0]) 1 st [[3; 0; 1; 2]%R] F0 = Ok (Some (time, hs, F)) /\ fs_vtu F 0 0 <> None /\
    forall r m, fs_vtu F r m <> None -> exists X, saved 2 1 ch ch_v (OnCells X) m F /\ forall c, 0 <= c < 4 -> (0 <= X c <= 3)%R.
Proof.
  intros U. destruct (C93_periodic_frames single 2 ch ch_v tor_labels [] [0; 0; 0; 0] around_bc [] U 1 5 (fun _ => [0]) 0 3 [3; 0; 1; 2]%R C90_torus_mesh C90_torus_split C90_torus_bc ltac:(lra) (fun _ => Permutation_refl _)) as (st & n & E & PR).
  - intros c F H. apply tor_facets in H. cbn [In] in H. repeat (destruct H as [H|H]; [injection H as <- <-; reflexivity|]). destruct H.
  - intros l H. cbn in H. intuition discriminate.
  - reflexivity.
  - intros x H. cbn [In] in H. repeat (destruct H as [<-|H]; [lra|]). destruct H.
  - lra.
  - exists st, n. split; [exact E|]. intros fuel F0 Hf. destruct (PR fuel F0 Hf) as (time & hs & F & EP & F1 & FR). exists time, hs, F. split; [exact EP|]. split; [exact F1|]. intros r m Hr. destruct (FR r m Hr) as (X & SD & B & _). exists X. split; [exact SD|]. exact B.
Qed.
Print Assumptions C93_torus.
