(** * Examples_var: C87 and C88 on the unit square of two triangles. *)
From Coq Require Import Reals Lra Permutation Sorted.
From Verif Require Import Py PyLemmas Model_part Spec_part Model_label Model_conn Spec_conn Proofs_conn1 Model_geom Spec_geom Proofs_geom1 Model_interp Spec_interp Spec_lsq Model_fvm Spec_fvm Proofs_fvm1 Proofs_fvm2 Model_bc Spec_bc Spec_bc3
  Model_domain Spec_domain Model_parallel Spec_parallel Properties_geom Properties_parallel Model_comm Model_run Spec_run Proofs_run1 Proofs_run3 Proofs_run5 Proofs_run6 Properties_run Spec_run2 Model_run2 Proofs_run7 Proofs_run11 Proofs_run13 Proofs_run14 Proofs_run15 Spec_run3 Proofs_run16 Properties_run2
  Model_poisson Examples_run4 Model_linsys Model_var Spec_var Proofs_var1 Properties_var.
Open Scope Z_scope.

(** two ranks, the fields 1 and (2, 5): their sum is (3, 6), their quotient (1/2, 1/5) *)
Definition two_five (c : Z) : R := if c =? 0 then 2%R else 5%R.
Theorem C87_square : forall f32, exists st, setup f32 2 2 sq sq_v [4; 4; 3; 3] [0; 0; 1; 1] [0; 1] = Ok st /\
  exists l1 l2 l3 l4, history sq_bc sq_bcv 2 st l1 /\ history sq_bc sq_bcv 2 st l2 /\ holding 2 st (fun _ => 1%R) l1 /\ holding 2 st two_five l2 /\
    operate_all Rplus 2 st l1 l2 = Ok l3 /\ holding 2 st (fun c => if c =? 0 then 3%R else 6%R) l3 /\ divide_all 2 st l1 l2 = Ok l4 /\ holding 2 st (fun c => if c =? 0 then (1 / 2)%R else (1 / 5)%R) l4.
Proof.
  intros f32. destruct (C70_any_field f32 _ _ _ _ _ _ _ _ _ (fun _ => 1%R) (proj2 C70_square)) as (st & E & l1 & H1 & O1). destruct (C70_any_field f32 _ _ _ _ _ _ _ _ _ two_five (proj2 C70_square)) as (st' & E' & l2 & H2 & O2). rewrite E in E'. injection E' as <-.
  exists st. split; [exact E|]. pose proof (proj2 C70_square) as RG. pose proof (rg_mesh _ _ _ _ _ _ _ _ _ RG) as VM. pose proof (rg_split _ _ _ _ _ _ _ _ _ RG) as VS.
  destruct (C87_arithmetic f32 _ _ _ _ _ _ _ VM VS) as (st' & E' & HA). rewrite E in E'. injection E' as <-. destruct (HA Rplus _ _ _ _ O1 O2) as (l3 & E3 & O3).
  destruct (C87_division f32 _ _ _ _ _ _ _ VM VS) as (st' & E' & HD). rewrite E in E'. injection E' as <-. destruct (proj1 (HD _ _ _ _ O1 O2)) as (l4 & E4 & O4). { intros c _. unfold two_five. destruct (c =? 0); lra. }
  exists l1, l2, l3, l4. split; [exact H1|]. split; [exact H2|]. split; [exact O1|]. split; [exact O2|]. split; [exact E3|].
  assert (HE : forall X Y l, (forall c, X c = Y c) -> holding 2 st X l -> holding 2 st Y l). { intros X Y l HXY (ws & A & B & C). exists ws. split; [exact A|]. split; [exact B|]. intros r Hr. destruct (C r Hr) as (C1 & C2). split; [exact C1|]. intros c Hc. rewrite <- HXY. exact (C2 c Hc). }
  split; [apply (HE _ _ _) with (2 := O3); intros c; unfold two_five; destruct (c =? 0); lra|]. split; [exact E4|]. apply (HE _ _ _) with (2 := O4). intros c. unfold two_five. destruct (c =? 0); lra.
Qed.

(** C88: the number is not that of the mesh.  Field (1, 3), exact solution 1: one rank returns 1, two ranks return 0 and 2. *)
Definition one_three (c : Z) : R := if c =? 0 then 1%R else 3%R.
Lemma sq_norm l (Q : Z -> R) : (forall c, In c l -> iscell sq c) -> norm_of 1 sq sq_v l Q = rsum (map (fun c => Rabs (Q c) * (1 / 2))%R l).
Proof. intros H. unfold norm_of. cbn [Z.eqb Pos.eqb]. unfold norm1. apply rsum_map_ext. intros c Hc. rewrite (sq_measure c (H c Hc)). reflexivity. Qed.
Lemma sq_error f32 SIZE npart0 epart r x : regular 2 SIZE sq sq_v [4; 4; 3; 3] npart0 epart sq_bc sq_bcv -> 0 <= r < SIZE -> owned sq epart r <> [] ->
  (rsum (map (fun c => Rabs (one_three c - 1) * (1 / 2)) (owned sq epart r)) = x * rsum (map (fun c => Rabs 1 * (1 / 2)) (owned sq epart r)))%R ->
  exists st, setup f32 2 SIZE sq sq_v [4; 4; 3; 3] npart0 epart = Ok st /\ forall l, holding SIZE st one_three l ->
    exists D v, get (se_domains st) r = Ok D /\ get l r = Ok v /\ norml2 D v (map (fun _ => 1%R) (owned sq epart r)) None = Ok (Some x).
Proof.
  intros RG Hr HN EX. destruct (C88_norm f32 _ _ _ _ _ _ _ (rg_mesh _ _ _ _ _ _ _ _ _ RG) (rg_split _ _ _ _ _ _ _ _ _ RG)) as (st & E & H). exists st. split; [exact E|]. intros l HO.
  destruct (H one_three l r None HO Hr (or_introl eq_refl)) as (D & v & ED & Ev & _ & H2). exists D, v. split; [exact ED|]. split; [exact Ev|]. destruct (H2 (fun _ => 1%R)) as (q & Eq & Q1 & Q2). rewrite Eq. f_equal.
  destruct q as [y|]; [|exfalso; destruct (owned sq epart r) as [|c t]; [contradiction|]; pose proof (proj1 Q1 eq_refl c (or_introl eq_refl)); lra]. f_equal. destruct (Q2 y eq_refl) as (-> & _).
  assert (OC : forall c, In c (owned sq epart r) -> iscell sq c) by (intros c Hc; unfold owned in Hc; apply filter_In in Hc as (Hc & _); apply in_range in Hc; exact Hc).
  rewrite !sq_norm by exact OC. rewrite EX. set (d := rsum _). assert (0 < d)%R; [|field; lra]. unfold d. destruct (owned sq epart r) as [|c t]; [contradiction|]. cbn [map]. rewrite rsum_cons, Rabs_R1. assert (0 <= rsum (map (fun _ : Z => 1 * (1 / 2))%R t))%R by (apply rsum_map_nonneg; intros; lra). lra.
Qed.
Theorem C88_ranks_refuted : forall f32, exists st1 st2, setup f32 2 1 sq sq_v [4; 4; 3; 3] [0; 0; 0; 0] [0; 0] = Ok st1 /\ setup f32 2 2 sq sq_v [4; 4; 3; 3] [0; 0; 1; 1] [0; 1] = Ok st2 /\
  exists l l', history sq_bc sq_bcv 1 st1 l /\ holding 1 st1 one_three l /\ history sq_bc sq_bcv 2 st2 l' /\ holding 2 st2 one_three l' /\
    exists D D0 D1 v v0 v1, get (se_domains st1) 0 = Ok D /\ get (se_domains st2) 0 = Ok D0 /\ get (se_domains st2) 1 = Ok D1 /\ get l 0 = Ok v /\ get l' 0 = Ok v0 /\ get l' 1 = Ok v1 /\
      norml2 D v [1%R; 1%R] None = Ok (Some 1%R) /\ norml2 D0 v0 [1%R] None = Ok (Some 0%R) /\ norml2 D1 v1 [1%R] None = Ok (Some 2%R).
Proof.
  intros f32. destruct (C70_any_field f32 _ _ _ _ _ _ _ _ _ one_three (proj1 C70_square)) as (st1 & E1 & l & H & O). destruct (C70_any_field f32 _ _ _ _ _ _ _ _ _ one_three (proj2 C70_square)) as (st2 & E2 & l' & H' & O').
  exists st1, st2. split; [exact E1|]. split; [exact E2|]. exists l, l'. split; [exact H|]. split; [exact O|]. split; [exact H'|]. split; [exact O'|].
  assert (A0 : Rabs (1 - 1) = 0%R) by (replace (1 - 1)%R with 0%R by ring; apply Rabs_R0). assert (A2 : Rabs (3 - 1) = 2%R) by (replace (3 - 1)%R with 2%R by ring; apply Rabs_pos_eq; lra).
  destruct (sq_error f32 1 [0; 0; 0; 0] [0; 0] 0 1%R (proj1 C70_square) ltac:(lia) ltac:(vm_compute; discriminate)) as (s & Es & K).
  { change (owned sq [0; 0] 0) with [0; 1]. unfold one_three. cbn [map Z.eqb rsum fold_right]. rewrite A0, A2, Rabs_R1. lra. }
  rewrite E1 in Es. injection Es as <-. destruct (K l O) as (D & v & ED & Ev & EN).
  destruct (sq_error f32 2 [0; 0; 1; 1] [0; 1] 0 0%R (proj2 C70_square) ltac:(lia) ltac:(vm_compute; discriminate)) as (s & Es & K0).
  { change (owned sq [0; 1] 0) with [0]. unfold one_three. cbn [map Z.eqb rsum fold_right]. rewrite A0. lra. }
  rewrite E2 in Es. injection Es as <-. destruct (K0 l' O') as (D0 & v0 & ED0 & Ev0 & EN0).
  destruct (sq_error f32 2 [0; 0; 1; 1] [0; 1] 1 2%R (proj2 C70_square) ltac:(lia) ltac:(vm_compute; discriminate)) as (s & Es & K1).
  { change (owned sq [0; 1] 1) with [1]. unfold one_three. cbn [map Z.eqb rsum fold_right]. rewrite A2, Rabs_R1. lra. }
  rewrite E2 in Es. injection Es as <-. destruct (K1 l' O') as (D1 & v1 & ED1 & Ev1 & EN1).
  exists D, D0, D1, v, v0, v1. split; [exact ED|]. split; [exact ED0|]. split; [exact ED1|]. split; [exact Ev|]. split; [exact Ev0|]. split; [exact Ev1|]. split; [exact EN|]. split; [exact EN0 | exact EN1].
Qed.
