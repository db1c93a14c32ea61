(** * Examples_run7: the saves of the Darcy program (C94). *)
From Coq Require Import String Reals Lra Permutation Sorted.
From Verif Require Import Py PyLemmas Model_part Spec_part Model_label Model_conn Spec_conn Model_geom Spec_geom Proofs_geom1 Model_interp Spec_interp Spec_lsq Model_fvm Spec_fvm Proofs_fvm1 Proofs_fvm2 Model_bc Spec_bc Spec_bc3
  Model_domain Spec_domain Model_parallel Spec_parallel Properties_geom Properties_parallel Model_comm Model_run Spec_run Proofs_run1 Proofs_run3 Proofs_run5 Proofs_run6 Properties_run Spec_run2 Model_run2 Proofs_run7 Proofs_run11 Proofs_run13 Proofs_run14 Proofs_run15 Spec_run3 Proofs_run16 Properties_run2
  Model_poisson Spec_poisson Spec_poisson2 Spec_poisson3 Proofs_poisson6 Proofs_poisson7 Proofs_poisson8 Proofs_poisson9 Proofs_poisson10 Properties_poisson Properties_poisson2 Model_run4 Spec_run6 Proofs_run30 Proofs_run31 Proofs_run32 Proofs_run33 Properties_run4 Model_run5 Spec_run7.
From Verif Require Import Model_linsys.
From Verif Require Import Spec_streamer.
From Verif Require Model_streamer.
From Verif Require Import Proofs_run34 Proofs_run35 Proofs_run36 Proofs_run37.
From Verif Require Spec_linsys Proofs_linsys5 Properties_save Properties_run6.
From Verif Require Import Model_save Spec_save Model_run6 Spec_run8 Proofs_run38 Model_run7 Spec_run9 Proofs_run39.
From Verif Require Import Properties_run8.
From Verif Require Import Properties_run9 Examples_run4.
Open Scope Z_scope.

Lemma turns_steady dim cells nodes labels bc vs bcp vsp spread order K cfl tfinal P Pc V dt : valid_mesh dim cells nodes labels -> sides_closed dim cells nodes labels bcp vsp -> (forall k c, iscell cells c -> P k c = Pc c) ->
  velocity_of dim cells nodes labels bcp vsp Pc V -> largest_driven dim cells nodes V K cfl dt ->
  forall n t X l t', darcy_turns dim cells nodes labels bc vs bcp vsp spread order K cfl tfinal P n t X l t' -> (forall p, In p l -> fst p = dt) /\ t' = (t + INR (length l) * dt)%R /\ forall m, (m < length l)%nat -> (t + INR m * dt < tfinal)%R.
Proof.
  intros VM SD EP HV HL n t X l t'. induction 1 as [n t X | n t X V' dt' Y l t' HT HV' PD HL' HS H IH]; [split; [intros p []|]; split; [cbn; ring | cbn; lia]|].
  assert (ED : dt' = dt) by exact (driven_unique dim cells nodes V' V K cfl dt' dt (velocity_unique dim cells nodes labels VM bcp vsp (P n) Pc V' V SD (EP n) HV' HV) HL' HL). subst dt'. destruct IH as (I1 & I2 & I3).
  split; [intros p [<-|Hp]; [reflexivity | exact (I1 p Hp)]|]. split; [cbn [length]; rewrite S_INR, I2; ring|]. intros [|m] Hm; [cbn [INR]; lra|]. rewrite S_INR. specialize (I3 m ltac:(cbn [length] in Hm; lia)). lra.
Qed.
(** On the square of two triangles with one rank each, tfinal being 120 time steps: 120 turns, tot = 3, saved after turn 1 and turns 3, 6, ..., 120: 41 saves. *)
Theorem C94_square : forall f32 K cfl X order spread at_node F0, (0 < cfl)%R -> (0 <= px K + py K + pz K)%R ->
  exists st dt, setup f32 2 2 sq sq_v sql [0; 0; 1; 1] [0; 1] = Ok st /\ (0 < dt)%R /\
    forall n0 p00 P0 backend, values_of 0%R 2 (se_domains st) X n0 -> values_of 0%R 2 (se_domains st) P0 p00 -> (forall k, solving 2 (backend k)) -> (forall k e b, zlen (backend k e b) = 2) ->
    exists s F flds, darcy_saving_program 120 spread order K cfl (120 * dt) None (Some (sq_bc, sq_bcv)) at_node (fun _ => [1; 0]) 2 st SMumps [Some [0%R; 6%R]; None] backend n0 p00 F0 = Ok (Some (120 * dt, s, F))%R /\
      zlen flds = 41 /\ directory 2 2 sq sq_v flds F.
Proof.
  intros f32 K cfl X order spread at_node F0 Hcfl HK. pose proof (proj2 C70_square) as RG. pose proof (rg_mesh _ _ _ _ _ _ _ _ _ RG) as VM.
  assert (CC : forall c, iscell sq c -> c = 0 \/ c = 1) by (intros c Hc; unfold iscell in Hc; change (zlen sq) with 2 in Hc; lia).
  assert (SRC : forall st, source SMumps sq 2 st [Some [0%R; 6%R]; None] sq_source).
  { intros st r Hr. assert (C : r = 0 \/ r = 1) by lia. destruct C as [-> | ->].
    + exists (Some [0%R; 6%R]). split; [reflexivity|]. split; [reflexivity|]. split; [reflexivity|]. intros c Hc. destruct (CC c Hc) as [-> | ->]; reflexivity.
    + exists None. split; [reflexivity|]. cbn. intros A. discriminate A. }
  assert (HPo : poisson 2 sq sq_v sql sq_bc sq_bcv sq_source sq_pressure) by (apply C74_square; unfold sq_source, sq_pressure; cbn [Z.eqb]; split; ring).
  assert (UN : forall P', poisson 2 sq sq_v sql sq_bc sq_bcv sq_source P' -> forall c, iscell sq c -> P' c = sq_pressure c).
  { intros P' HP c Hc. apply C74_square in HP as (A0 & A1). unfold sq_source in A0, A1. cbn [Z.eqb] in A0, A1. unfold sq_pressure. destruct (CC c Hc) as [-> | ->]; cbn [Z.eqb]; lra. }
  destruct (C80_terminates f32 2 2 sq sq_v sql [0; 0; 1; 1] [0; 1] None (Some (sq_bc, sq_bcv)) RG (proj1 (C80_default_conditions 2 sq sql [0; 1])) (proj2 (C80_default_conditions 2 sq sql [0; 1])) C76_square_closed) as (st & E & T).
  destruct (T SMumps [Some [0%R; 6%R]; None] sq_source X sq_pressure spread order K cfl 1%R (or_introl eq_refl) (SRC st) Hcfl HK HPo UN) as (V & dt & _ & _ & HV & PD & HL & _).
  destruct (C94_darcy f32 2 2 sq sq_v sql [0; 0; 1; 1] [0; 1] None (Some (sq_bc, sq_bcv)) at_node (fun _ => [1; 0]) RG (proj1 (C80_default_conditions 2 sq sql [0; 1])) (proj2 (C80_default_conditions 2 sq sql [0; 1])) (fun _ => perm_swap _ _ _)) as (st' & E' & D). rewrite E in E'. injection E' as <-.
  exists st, dt. split; [exact E|]. split; [exact PD|]. intros n0 p00 P0 backend HN HP HSv LB.
  destruct (D SMumps [Some [0%R; 6%R]; None] sq_source n0 p00 X P0 spread order K cfl (120 * dt)%R (or_introl eq_refl) (SRC st) HN HP Hcfl HK ltac:(lra)) as (es & b & HI & R).
  destruct (R backend 120%nat F0 (fun k => LB k es b)) as (o & EO & HO). cbv zeta in HO.
  assert (EPk : forall k c, iscell sq c -> nthZ 0%R (backend k es b) c = sq_pressure c).
  { intros k. apply UN. apply (proj1 (HI _ (LB k es b))). apply HSv. exists [0%R; (-1)%R]. apply HI; [reflexivity|]. apply C74_square. unfold sq_source. cbn [Z.eqb]. change (nthZ 0%R [0%R; (-1)%R] 0) with 0%R. change (nthZ 0%R [0%R; (-1)%R] 1) with (-1)%R. split; ring. }
  pose proof (turns_steady 2 sq sq_v sql (conditions 2 None) (given_values None) sq_bc sq_bcv spread order K cfl (120 * dt)%R (fun k => nthZ 0%R (backend k es b)) sq_pressure V dt VM C76_square_closed EPk HV HL) as ST.
  destruct o as [((t, s), F)|].
  - destruct HO as (l & tots & flds & TU & LF & Ht & _ & FT & FW & DI). destruct (ST _ _ _ _ _ TU) as (S1 & S2 & S3).
    assert (LL : length l = 120%nat).
    { destruct (Nat.eq_dec (length l) 120) as [Q|Q]; [exact Q|]. exfalso. assert (HL1 : (length l <= 119)%nat) by lia. apply le_INR in HL1. change (INR 119) with (IZR (Z.of_nat 119)) in HL1 || rewrite (INR_IZR_INZ 119) in HL1. change (Z.of_nat 119) with 119 in HL1.
      assert (INR (length l) * dt <= 119 * dt)%R by (apply Rmult_le_compat_r; lra). rewrite S2 in Ht. lra. }
    assert (Et : t = (120 * dt)%R) by (rewrite S2, LL, (INR_IZR_INZ 120); change (Z.of_nat 120) with 120; apply Rplus_0_l).
    assert (TT : forall T, In T tots -> T = 3).
    { clear -FT S1 PD. intros T HT. assert (Q : exists p, In p l /\ fits (120 * dt) (fst p) (T - 1)). { induction FT as [|p T' l tots H FT IH]; [destruct HT|]. destruct HT as [<-|HT]; [exists p; split; [left; reflexivity | exact H]|]. destruct (IH (fun q Hq => S1 q (or_intror Hq)) HT) as (q & Hq & H2). exists q. split; [right; exact Hq | exact H2]. }
      destruct Q as (p & Hp & Q1 & Q2). rewrite (S1 p Hp) in Q1, Q2. assert (Z1 : (IZR (T - 1) * 50 <= 120)%R) by (apply Rmult_le_reg_r with dt; [exact PD | lra]). assert (Z2 : (120 < (IZR (T - 1) + 1) * 50)%R) by (apply Rmult_lt_reg_r with dt; [exact PD | lra]).
      assert (T - 1 < 3) by (apply lt_IZR; lra). assert (1 < T - 1) by (apply lt_IZR; lra). lia. }
    assert (LT : length tots = 120%nat) by (rewrite <- LL; symmetry; clear -FT; induction FT; cbn [length]; congruence).
    assert (TE : tots = repeat 3 120). { rewrite <- LT. clear -TT. induction tots as [|T tots IH]; [reflexivity|]. cbn [length repeat]. f_equal; [apply TT; left; reflexivity | apply IH; intros; apply TT; right; assumption]. }
    exists s, F, flds. rewrite Et in EO. split; [exact EO|]. split; [|exact DI]. assert (FL : length flds = length (saving_turns_by tots)) by (clear -FW; induction FW; cbn [length]; congruence). unfold zlen. rewrite FL, TE. vm_compute. reflexivity.
  - destruct HO as (l & t & TU & LL & Ht). exfalso. destruct (ST _ _ _ _ _ TU) as (_ & S2 & _). rewrite S2, LL, (INR_IZR_INZ 120) in Ht. change (Z.of_nat 120) with 120 in Ht. lra.
Qed.
Print Assumptions C94_square.
