(** * Examples_run5: the streamer program on the unit square of two triangles (C83-C85). *)
From Coq Require Import Reals Lra Permutation Sorted.
From Verif Require Import Py PyLemmas Model_part Spec_part Model_label Model_conn Spec_conn Model_geom Spec_geom Proofs_geom1 Model_interp Spec_interp Spec_lsq Model_fvm Spec_fvm Proofs_fvm1 Proofs_fvm2 Model_bc Spec_bc Spec_bc3
  Model_domain Spec_domain Model_parallel Spec_parallel Properties_geom Properties_parallel Model_comm Model_run Spec_run Proofs_run1 Proofs_run3 Proofs_run5 Proofs_run6 Properties_run Spec_run2 Model_run2 Proofs_run7 Proofs_run11 Proofs_run13 Proofs_run14 Proofs_run15 Spec_run3 Proofs_run16 Properties_run2
  Model_poisson Spec_poisson Spec_poisson2 Spec_poisson3 Proofs_poisson6 Proofs_poisson7 Proofs_poisson8 Proofs_poisson9 Proofs_poisson10 Properties_poisson Properties_poisson2 Model_run4 Spec_run6 Proofs_run30 Proofs_run31 Proofs_run32 Proofs_run33 Properties_run4 Examples_run4 Model_run5 Spec_run7.
From Verif Require Import Model_linsys.
From Verif Require Import Spec_streamer.
From Verif Require Import Proofs_run34 Proofs_run35 Proofs_run36 Proofs_run37 Properties_run5.
From Verif Require Properties_run3.
From Verif Require Spec_linsys Proofs_linsys5.
Open Scope Z_scope.


Notation condq := (Some (sq_bc, sq_bcv)).
Lemma sq_one : one_potential 2 sq sq_v sql sq_bc sq_bcv.
Proof.
  intros f. split.
  - exists (fun c => if c =? 0 then 1 - (f 0%Z + f 1%Z) / 6 else 1 - (f 0%Z + f 1%Z) / 6 - f 1%Z / 6)%R. apply C74_square. cbn [Z.eqb]. split; field.
  - intros P P' H H' c Hc. apply C74_square in H as (A & B). apply C74_square in H' as (A' & B'). destruct (sq_cells c Hc) as [-> | ->]; lra.
Qed.
Lemma sq_same : forall l p, In (l, BDirichlet) sq_bc -> prescribed_at sq_bcv l p = 1%R.
Proof. intros l p Hl. cbn in Hl. destruct Hl as [Q|[Q|[Q|[Q|[]]]]]; try discriminate Q. injection Q as <-. reflexivity. Qed.
(** One rank and two ranks, densities without boundary conditions, the potential 1 on the lower side: the hypotheses of C84 hold *)
Theorem C84_square : forall f32 cfl tfinal X XI order saves, (0 < cfl)%R ->
  exists st st', setup f32 2 1 sq sq_v sql [0; 0; 0; 0] [0; 0] = Ok st /\ setup f32 2 2 sq sq_v sql [0; 0; 1; 1] [0; 1] = Ok st' /\
    forall n0 i0 p00 P0 backend n0' i0' p00' P0' backend' fuel, values_of 0%R 1 (se_domains st) X n0 -> values_of 0%R 1 (se_domains st) XI i0 -> values_of 0%R 1 (se_domains st) P0 p00 ->
      values_of 0%R 2 (se_domains st') X n0' -> values_of 0%R 2 (se_domains st') XI i0' -> values_of 0%R 2 (se_domains st') P0' p00' ->
      (forall k e b, zlen (backend k e b) = 2) -> (forall k, solving 2 (backend k)) -> (forall k e b, zlen (backend' k e b) = 2) -> (forall k, solving 2 (backend' k)) ->
    match streamer fuel true order cfl tfinal saves None condq 1 st SMumps backend n0 i0 p00, streamer fuel true order cfl tfinal saves None condq 2 st' SPetsc backend' n0' i0' p00' with
    | Ok (Some (t, s)), Ok (Some (t', s')) => t = t' /\ exists Y YI, holding 1 st Y (sk_ne s) /\ holding 2 st' Y (sk_ne s') /\ values_of 0%R 1 (se_domains st) YI (sk_ni s) /\ values_of 0%R 2 (se_domains st') YI (sk_ni s')
    | Ok None, Ok None => True
    | Err e, Err e' => e = e'
    | _, _ => False
    end.
Proof.
  intros f32 cfl tfinal X XI order saves Hcfl.
  destruct (C84_same_result f32 2 sq sq_v sql None condq 1 [0; 0; 0; 0] [0; 0] 2 [0; 0; 1; 1] [0; 1] (proj1 C70_square) (proj2 C70_square) (proj1 (C80_default_conditions 2 sq sql [0; 0])) (proj2 (C80_default_conditions 2 sq sql [0; 0])) (proj2 (C80_default_conditions 2 sq sql [0; 1])) C76_square_closed sq_one) as (st & st' & E & E' & H).
  exists st, st'. split; [exact E|]. split; [exact E'|]. intros n0 i0 p00 P0 backend n0' i0' p00' P0' backend' fuel A1 A2 A3 B1 B2 B3 L S L' S'.
  exact (H SMumps SPetsc n0 i0 p00 n0' i0' p00' X XI P0 P0' true true order cfl tfinal saves backend backend' fuel (or_introl eq_refl) (or_intror eq_refl) A1 A2 A3 B1 B2 B3 Hcfl (or_introl eq_refl) (or_introl eq_refl) L S L' S').
Qed.
(** the same densities of electrons and ions: at rest, with the script on two ranks *)
Theorem C85_square : forall f32 cfl tfinal X order, (0 < cfl)%R ->
  exists st, setup f32 2 2 sq sq_v sql [0; 0; 1; 1] [0; 1] = Ok st /\
    forall n0 i0 p00 P0 backend fuel, values_of 0%R 2 (se_domains st) X n0 -> values_of 0%R 2 (se_domains st) X i0 -> values_of 0%R 2 (se_domains st) P0 p00 ->
      (forall k e b, zlen (backend k e b) = 2) -> (forall k, solving 2 (backend k)) ->
    match streamer fuel true order cfl tfinal saves_script None condq 2 st SMumps backend n0 i0 p00 with
    | Ok (Some (t, s)) => exists n, (n <= fuel)%nat /\ t = (INR n * 1000000)%R /\ (tfinal <= t)%R /\ (forall m, (m < n)%nat -> (INR m * 1000000 < tfinal)%R) /\ holding 2 st X (sk_ne s) /\ values_of 0%R 2 (se_domains st) X (sk_ni s)
    | Ok None => (INR fuel * 1000000 < tfinal)%R
    | Err e => False
    end.
Proof.
  intros f32 cfl tfinal X order Hcfl.
  destruct (C85_rest f32 2 2 sq sq_v sql [0; 0; 1; 1] [0; 1] None condq 1 (proj2 C70_square) (proj1 (C80_default_conditions 2 sq sql [0; 1])) (proj2 (C80_default_conditions 2 sq sql [0; 1])) C76_square_closed sq_one) as (st & E & H).
  { exact sq_same. }
  exists st. split; [exact E|]. intros n0 i0 p00 P0 backend fuel A1 A2 A3 L S.
  exact (H SMumps n0 i0 p00 X P0 true order cfl tfinal backend fuel (or_introl eq_refl) A1 A2 A3 Hcfl (or_introl eq_refl) L S).
Qed.
(** Finding.  The program with the class StreamerModel (saves_bis): at rest on this square with tfinal = 2000000, the second turn raises ZeroDivisionError *)
Theorem C83_saving_refuted : forall f32 cfl X order, (0 < cfl)%R ->
  exists st, setup f32 2 1 sq sq_v sql [0; 0; 0; 0] [0; 0] = Ok st /\
    forall n0 i0 p00 P0 backend, values_of 0%R 1 (se_domains st) X n0 -> values_of 0%R 1 (se_domains st) X i0 -> values_of 0%R 1 (se_domains st) P0 p00 ->
      (forall k e b, zlen (backend k e b) = 2) -> (forall k, solving 2 (backend k)) ->
    streamer 2 true order cfl 2000000 (saves_bis 2000000) None condq 1 st SMumps backend n0 i0 p00 = Err ZeroDivision.
Proof.
  intros f32 cfl X order Hcfl.
  destruct (C83_streamer f32 2 1 sq sq_v sql [0; 0; 0; 0] [0; 0] None condq (proj1 C70_square) (proj1 (C80_default_conditions 2 sq sql [0; 0])) (proj2 (C80_default_conditions 2 sq sql [0; 0]))) as (st & E & H).
  exists st. split; [exact E|]. intros n0 i0 p00 P0 backend A1 A2 A3 L S. specialize (H SMumps n0 i0 p00 X X P0 true order cfl 2000000%R (saves_bis 2000000) backend 2%nat (or_introl eq_refl) A1 A2 A3 Hcfl (or_introl eq_refl) L S). cbv zeta in H.
  assert (RS := rest_regular f32 2 1 sq sq_v sql [0; 0; 0; 0] [0; 0] (conditions 2 None) (given_values None) sq_bc sq_bcv 1 (proj1 C70_square) C76_square_closed sq_one sq_same (ex_intro _ st E) order cfl 2000000%R X).
  assert (Z1 : forall k t dt Y1 I1 Y2 I2, streamer_flow 2 sq sq_v sql (conditions 2 None) (given_values None) sq_bc sq_bcv order cfl 2000000 X X (Datatypes.S k) t Y1 I1 ->
      streamer_flow 2 sq sq_v sql (conditions 2 None) (given_values None) sq_bc sq_bcv order cfl 2000000 X X (Datatypes.S (Datatypes.S k)) (t + dt)%R Y2 I2 -> saves_bis 2000000 (Datatypes.S k) dt = Err ZeroDivision).
  { intros k t dt Y1 I1 Y2 I2 F1 F2. destruct (RS _ _ _ _ F1) as (T1 & _). destruct (RS _ _ _ _ F2) as (T2 & _). rewrite (S_INR (Datatypes.S k)) in T2. assert (dt = 1000000)%R by lra. subst dt.
    destruct (proj2 C83_saving 2000000%R (Datatypes.S k) 1000000%R ltac:(lra) ltac:(lra)) as [(_ & [Q|Q])|(Q & _)]; [discriminate Q | lra | exact Q]. }
  destruct (streamer 2 true order cfl 2000000 (saves_bis 2000000) None condq 1 st SMumps backend n0 i0 p00) as [[(t, s)|]|e].
  - exfalso. destruct H as (n & Y & YI & Ln & F & T & TU & _). destruct (RS n t Y YI F) as (ET & _). destruct n as [|[|n]]; [cbn in ET; lra | cbn in ET; lra|]. assert (n = O) by lia. subst n.
    destruct (TU 1%nat ltac:(lia)) as (t1 & dt & Y1 & I1 & Y2 & I2 & b & _ & F1 & F2 & Q). rewrite (Z1 O t1 dt _ _ _ _ F1 F2) in Q. discriminate Q.
  - exfalso. destruct H as (t & Y & YI & F & T & _). destruct (RS _ t Y YI F) as (ET & _). cbn in ET. lra.
  - destruct H as (n & t & dt & X1 & I1 & X2 & I2 & Ln & _ & F1 & F2 & Q & _). destruct n as [|n]; [discriminate Q|]. rewrite (Z1 n t dt _ _ _ _ F1 F2) in Q. injection Q as <-. reflexivity.
Qed.

Lemma drift_speed_pos r : (0 < r)%R -> (0 < drift_speed r)%R.
Proof. intros H. unfold drift_speed. repeat destruct (Rle_dec _ _); lra. Qed.
(** Finding.  Two ranks, first order, class StreamerModel: one electron per unit of volume everywhere, one ion in cell 0, two in cell 1 (on the other rank).  Electrons drift into cell 1; its rank
    sees an empty cell 0: after the first turn the program does not hold the densities of any flow (C83) *)
Theorem C83_order1_refuted : forall f32 cfl, (0 < cfl)%R ->
  exists st, setup f32 2 2 sq sq_v sql [0; 0; 1; 1] [0; 1] = Ok st /\
    forall n0 i0 p00 P0 saves backend, let X := (fun _ => 1%R) in let XI := (fun c : Z => if c =? 0 then 1%R else 2%R) in
      values_of 0%R 2 (se_domains st) X n0 -> values_of 0%R 2 (se_domains st) XI i0 -> values_of 0%R 2 (se_domains st) P0 p00 ->
      (forall dt, exists b, saves O dt = Ok b) -> (forall k e b, zlen (backend k e b) = 2) -> (forall k, solving 2 (backend k)) ->
    exists tfinal t s, streamer 1 false 1 cfl tfinal saves None condq 2 st SMumps backend n0 i0 p00 = Ok (Some (t, s)) /\
      forall n Y YI, streamer_flow 2 sq sq_v sql (conditions 2 None) (given_values None) sq_bc sq_bcv 1 cfl tfinal X XI n t Y YI -> ~ holding 2 st Y (sk_ne s).
Proof.
  intros f32 cfl Hcfl.
  destruct (C83_first_turn f32 2 2 sq sq_v sql [0; 0; 1; 1] [0; 1] None condq (proj2 C70_square) (proj1 (C80_default_conditions 2 sq sql [0; 1])) (proj2 (C80_default_conditions 2 sq sql [0; 1]))) as (st & E & H).
  exists st. split; [exact E|]. intros n0 i0 p00 P0 saves backend X XI A1 A2 A3 SVE LB SV. set (bc := conditions 2 None) in *. set (vs := given_values None) in *.
  destruct (H SMumps n0 i0 p00 X XI P0 1 cfl saves backend (or_introl eq_refl) A1 A2 A3 ltac:(lia) Hcfl LB SV) as (P & EF & dt & Y & YI & HPo & VP & PD & LS & BS & RUN).
  destruct (SVE dt) as (b & Eb). destruct (RUN dt b Eb ltac:(lra)) as (s & Es & HO & _). exists dt, dt, s. split; [exact Es|]. intros n Y' YI' FL HO'.
  pose proof (HPo (proj1 (sq_one _))) as PP. change (conditions 2 condq) with sq_bc in *. change (given_values condq) with sq_bcv in *.
  assert (I0 : iscell sq 0) by (unfold iscell; change (zlen sq) with 2; lia). assert (I1 : iscell sq 1) by (unfold iscell; change (zlen sq) with 2; lia).
  destruct BS as (S & L & N & G & RC & EY).
  set (Y2 := fun c => (X c + dt * (rsum (map (electrons_entering 2 sq sq_v sql bc vs 1 EF X S L G c) (facets (cell sq c))) / measure_of sq sq_v c + produced 2 sq EF X c))%R).
  assert (FL2 : streamer_flow 2 sq sq_v sql bc vs sq_bc sq_bcv 1 cfl dt X XI 1 (0 + dt)%R Y2 (fun c => XI c + dt * produced 2 sq EF X c)%R).
  { apply (streamer_next _ _ _ _ _ _ _ _ _ _ _ _ _ 0 0%R X XI P EF dt); [constructor; intros; split; reflexivity | lra | auto | exact VP | exact LS|]. exists S, L, N, G. split; [exact RC|]. intros c Hc. split; reflexivity. }
  assert (N1 : n = 1%nat).
  { destruct n as [|[|n]]; [exfalso; inversion FL; lra | reflexivity | exfalso].
    destruct (streamer_before 2 sq sq_v sql bc vs sq_bc sq_bcv 1 cfl dt X XI _ _ _ _ FL 1%nat ltac:(lia)) as (t' & Y3 & I3 & F3 & B3).
    destruct (streamer_unique 2 sq sq_v sql C68_square bc vs sq_bc sq_bcv 1 cfl dt X X XI XI C76_square_closed sq_one (fun _ _ => eq_refl) (fun _ _ => eq_refl) _ _ _ _ _ _ _ F3 FL2) as (-> & _). lra. }
  subst n. destruct (streamer_unique 2 sq sq_v sql C68_square bc vs sq_bc sq_bcv 1 cfl dt X X XI XI C76_square_closed sq_one (fun _ _ => eq_refl) (fun _ _ => eq_refl) _ _ _ _ _ _ _ FL FL2) as (_ & EQ & _).
  destruct (C68_parallel_setup f32 2 2 sq sq_v sql [0; 0; 1; 1] [0; 1] C68_square (rg_split _ _ _ _ _ _ _ _ _ (proj2 C70_square))) as (st2 & ES & RP & _). rewrite E in ES. injection ES as <-.
  assert (YY : Y' 1%Z = Y 1%Z). { destruct HO as (w & Ew & HW). destruct HO' as (w' & Ew' & HW'). rewrite Ew in Ew'. injection Ew' as <-. exact (Properties_run3.values_unique 0%R 2 2 sq sq_v sql [0; 0; 1; 1] [0; 1] (se_domains st) Y' Y w (rg_split _ _ _ _ _ _ _ _ _ (proj2 C70_square)) RP HW' HW 1 I1). }
  rewrite (EQ 1 I1) in YY. unfold Y2 in YY. rewrite (proj1 (EY 1 I1)) in YY. rewrite (sq_measure 1 I1) in YY. change (facets (cell sq 1)) with [[2; 3]; [0; 2]; [0; 3]] in YY. cbn [map] in YY.
  destruct C69_square_outward as (_ & _ & _ & O4 & O5 & O6).
  assert (J4 : In [2; 3] (facets (cell sq 1)) /\ In [0; 3] (facets (cell sq 1)) /\ In [0; 2] (facets (cell sq 1))) by (vm_compute; tauto). destruct J4 as (J4 & J6 & J5).
  assert (GA := C85_gauss 2 sq sq_v sql sq_bc sq_bcv P EF X XI C68_square C76_square_closed PP VP 1 I1). change (facets (cell sq 1)) with [[2; 3]; [0; 2]; [0; 3]] in GA. cbn [map] in GA. rewrite (sq_measure 1 I1) in GA. unfold X, XI in GA. cbn [Z.eqb] in GA.
  assert (Z4 : vdot (EF 1 [2; 3]) (outward sq sq_v 1 [2; 3]) = 0%R). { destruct VP as (N0 & _ & VP). destruct (VP 1 [2; 3] I1 J4) as (_ & _ & Q). change (beside sq 1 [2; 3]) with (@None Z) in Q. cbn iota in Q. change (dirichlet_flux 2 sq sq_v sql sq_bc sq_bcv P 1 [2; 3]) with 0%R in Q. unfold Spec_linsys.vneg, vdot in *. cbn [px py pz] in Q. lra. }
  assert (Z6 : vdot (EF 1 [0; 3]) (outward sq sq_v 1 [0; 3]) = 0%R). { destruct VP as (N0 & _ & VP). destruct (VP 1 [0; 3] I1 J6) as (_ & _ & Q). change (beside sq 1 [0; 3]) with (@None Z) in Q. cbn iota in Q. change (dirichlet_flux 2 sq sq_v sql sq_bc sq_bcv P 1 [0; 3]) with 0%R in Q. unfold Spec_linsys.vneg, vdot in *. cbn [px py pz] in Q. lra. }
  unfold rsum in GA. cbn [fold_right] in GA. rewrite Z4, Z6 in GA. 
  assert (DQ : forall e o, vdot (drift e) o = (- (drift_speed (vlen e / N_gas) / vlen e) * vdot e o)%R) by (intros e o; unfold drift, vscal, vdot; cbn [px py pz]; ring).
  set (E2 := EF 1 [0; 2]) in *. set (o2 := outward sq sq_v 1 [0; 2]) in *. assert (QN : (vdot (drift E2) o2 < 0)%R).
  { rewrite DQ. assert (LP : (0 < vlen E2)%R). { unfold vlen. apply sqrt_lt_R0. destruct (Rle_lt_dec (vdot E2 E2) 0) as [B|B]; [exfalso | exact B]. clearbody E2; destruct E2 as [a1 a2 a3]. unfold vdot in *. cbn [px py pz] in *. rewrite O5 in GA. cbn [px py pz] in GA. assert (a1 = 0)%R by nra. assert (a2 = 0)%R by nra. subst. lra. }
    assert (0 < drift_speed (vlen E2 / N_gas) / vlen E2)%R. { apply Rdiv_lt_0_compat; [apply drift_speed_pos; apply Rdiv_lt_0_compat; [exact LP | unfold N_gas; lra] | exact LP]. }
    assert (0 < vdot E2 o2)%R by lra. nra. }
  unfold electrons_entering, entering in YY. cbv zeta in YY.
  assert (C4 : forall b v Q1 Q2 Q3, carried 2 sq sq_v sql b v 1 (drift (EF 1 [2; 3])) Q1 Q2 Q3 1 [2; 3] = 0%R) by (intros; unfold carried; cbv zeta; rewrite DQ, Z4; ring).
  assert (C6 : forall b v Q1 Q2 Q3, carried 2 sq sq_v sql b v 1 (drift (EF 1 [0; 3])) Q1 Q2 Q3 1 [0; 3] = 0%R) by (intros; unfold carried; cbv zeta; rewrite DQ, Z6; ring).
  rewrite !C4, !C6 in YY.
  assert (C5 : forall b v Q1 Q2 Q3, carried 2 sq sq_v sql b v 1 (drift E2) Q1 Q2 Q3 1 [0; 2] = (vdot (drift E2) o2 * Q1 0%Z)%R).
  { intros. unfold carried. cbv zeta. destruct (Rle_dec 0 _) as [B|B]; [exfalso; exact (Rlt_irrefl _ (Rle_lt_trans _ _ _ B QN))|]. change (beside sq 1 [0; 2]) with (Some 0). unfold reconstructed. change (1 - 1) with 0. f_equal. ring. }
  rewrite !C5 in YY. unfold alone in YY. change (owner [0; 1] 0 =? owner [0; 1] 1) with false in YY. unfold rsum in YY. cbn [fold_right] in YY. unfold X in YY.
  assert (HF : forall x, (x / (1 / 2) = 2 * x)%R) by (intros x; field). rewrite !HF in YY. change (EF 1 [0; 2]) with E2 in YY. assert (QZ : (dt * vdot (drift E2) o2 = 0)%R) by lra. apply Rmult_integral in QZ as [QZ|QZ]; lra.
Qed.
Print Assumptions C83_order1_refuted.
