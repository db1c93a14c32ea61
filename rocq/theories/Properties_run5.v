(** * Properties_run5: the streamer program on any number of ranks (C83-C85).  Vocabulary: [Spec_run7]. *)
From Coq Require Import Reals Lra Permutation Sorted.
From Verif Require Import Py PyLemmas Model_part Spec_part Model_label Model_conn Spec_conn Model_geom Spec_geom Proofs_geom1 Model_interp Spec_interp Spec_lsq Model_fvm Spec_fvm Proofs_fvm1 Proofs_fvm2 Model_bc Spec_bc Spec_bc3
  Model_domain Spec_domain Model_parallel Spec_parallel Properties_geom Properties_parallel Model_comm Model_run Spec_run Proofs_run1 Proofs_run3 Proofs_run5 Proofs_run6 Properties_run Spec_run2 Model_run2 Proofs_run7 Proofs_run11 Proofs_run13 Proofs_run14 Proofs_run15 Spec_run3 Proofs_run16 Properties_run2
  Model_poisson Spec_poisson Spec_poisson2 Spec_poisson3 Proofs_poisson6 Proofs_poisson7 Proofs_poisson8 Proofs_poisson9 Proofs_poisson10 Properties_poisson Properties_poisson2 Model_run4 Spec_run6 Proofs_run30 Proofs_run31 Proofs_run32 Proofs_run33 Properties_run4 Model_run5 Spec_run7.
From Verif Require Import Model_linsys.
From Verif Require Import Spec_streamer.
From Verif Require Model_streamer.
From Verif Require Import Proofs_run34 Proofs_run35 Proofs_run36 Proofs_run37.
From Verif Require Spec_linsys Proofs_linsys5.
Open Scope Z_scope.

(** C83.  The program starts.  It makes n turns, in each of which: the solver gives the potential of the charge of the electrons and ions (if there is one); minus its gradient is the
    field; electrons drift against the field; the time step is the largest one allowed; drift, diffusion and ionisation are balanced in every cell of the whole mesh.  It stops as soon as
    the time has reached tfinal, or when the decision to save raises an exception.  At the end the ranks hold the electrons and ions, the last potential, field and drift at the faces
    and, if the last turn was saved, the electrons at the nodes.
    The gradients of the cells must be computed in every turn or used (see C83_order1_refuted). *)
Theorem C83_streamer : forall f32 dim SIZE cells nodes labels npart0 epart condn condP,
  let bc := conditions dim condn in let vs := given_values condn in let bcp := conditions dim condP in let vsp := given_values condP in
  regular dim SIZE cells nodes labels npart0 epart bcp vsp -> bc_valid dim bc vs -> corners_whole dim cells labels bc epart ->
  exists st, setup f32 dim SIZE cells nodes labels npart0 epart = Ok st /\
    forall sol n0 i0 p00 X XI P0 fresh order cfl tfinal saves backend fuel, sol = SMumps \/ sol = SPetsc ->
      values_of 0%R SIZE (se_domains st) X n0 -> values_of 0%R SIZE (se_domains st) XI i0 -> values_of 0%R SIZE (se_domains st) P0 p00 ->
      (0 < cfl)%R -> fresh = true \/ order = 2 -> (forall k e b, zlen (backend k e b) = zlen cells) -> (forall k, solving (zlen cells) (backend k)) ->
    let flow := streamer_flow dim cells nodes labels bc vs bcp vsp order cfl tfinal X XI in
    let turned m := exists t dt Y YI Y' YI' b, (0 < dt)%R /\ flow m t Y YI /\ flow (Datatypes.S m) (t + dt)%R Y' YI' /\ saves m dt = Ok b in
    match streamer fuel fresh order cfl tfinal saves condn condP SIZE st sol backend n0 i0 p00 with
    | Ok (Some (t, s)) => exists n Y YI, (n <= fuel)%nat /\ flow n t Y YI /\ (tfinal <= t)%R /\ (forall m, (m < n)%nat -> turned m) /\ holding SIZE st Y (sk_ne s) /\ values_of 0%R SIZE (se_domains st) YI (sk_ni s) /\
        match n with
        | O => True
        | Datatypes.S m => exists t0 dt X' XI' P E, flow m t0 X' XI' /\ t = (t0 + dt)%R /\
            ((exists P', poisson dim cells nodes labels bcp vsp (charge_of X' XI') P') -> poisson dim cells nodes labels bcp vsp (charge_of X' XI') P) /\ velocity_of dim cells nodes labels bcp vsp P E /\
            holding SIZE st P (sk_P s) /\ face_field dim cells SIZE st E (sk_gP s) /\ face_field dim cells SIZE st E (sk_Ef s) /\ face_field dim cells SIZE st (fun c F => drift (E c F)) (sk_vf s) /\
            (saves m dt = Ok true -> exists N, node_field SIZE st N (sk_ne s) /\ forall c g, iscell cells c -> In g (cell cells c) -> nodal_value dim cells nodes labels bc vs Y g (N g))
        end
    | Ok None => exists t Y YI, flow fuel t Y YI /\ (t < tfinal)%R /\ forall m, (m < fuel)%nat -> turned m
    | Err e => exists n t dt X' XI' Y YI, (n < fuel)%nat /\ (0 < dt)%R /\ flow n t X' XI' /\ flow (Datatypes.S n) (t + dt)%R Y YI /\ saves n dt = Err e /\ forall m, (m < n)%nat -> turned m
    end.
Proof.
  intros f32 dim SIZE cells nodes labels npart0 epart condn condP bc vs bcp vsp RG BVn CWn. regular_setup f32 RG st E RP CS HX. exists st. split; [exact E|].
  intros sol n0 i0 p00 X XI P0 fresh order cfl tfinal saves backend fuel HS HN HI HP Hcfl FO LB SV flow turned. pose proof (setup_tc f32 _ _ _ _ _ _ _ _ VM VS E) as TC.
  destruct (streamer_start_ok dim SIZE cells nodes labels npart0 epart st VM PL VS RP SC CS SP condn condP BV BVn sol n0 i0 p00 X XI P0 HS HN HI HP) as (s0 & ss & es & E1 & DS & HB & SY).
  unfold streamer. rewrite E1. cbn [bind fst snd].
  pose proof (streamer_loop_ok dim SIZE cells nodes labels npart0 epart st VM PL VS RP SC CS HX SP TC bcp vsp BV CW bc vs BVn CWn fresh order cfl FO Hcfl sol ss es HS HB SY tfinal X XI saves backend LB SV fuel 0%nat 0%R X XI s0) as H.
  assert (H1 : after_turns dim SIZE cells nodes labels st bcp vsp bc vs order cfl sol tfinal X XI saves 0 0 X XI s0) by (split; [exists P0; exact DS | exact I]).
  specialize (H H1 (streamer_begin dim cells nodes labels bc vs bcp vsp order cfl tfinal X XI X XI (fun c Hc => conj eq_refl eq_refl)) ltac:(intros m Hm; lia)).
  destruct (streamer_loop fuel 0 fresh order cfl saves SIZE st sol ss es backend tfinal 0 s0) as [[(t, s)|]|e].
  - destruct H as (n & Y & YI & Hn & FL & Ht & ((P1 & DS1) & AF) & TU). exists n, Y, YI. split; [lia|]. split; [exact FL|]. split; [exact Ht|]. split; [exact TU|].
    split; [exact (holds_holding dim SIZE cells nodes npart0 epart st VS bc vs _ _ (proj1 DS1))|]. split; [exact (proj1 (proj2 DS1))|]. destruct n as [|m]; [exact I|].
    destruct AF as (t0 & dt & X' & XI' & P & E0 & A1 & A2 & A3 & A4 & A5 & A6 & A7 & A8 & A9). exists t0, dt, X', XI', P, E0. split; [exact A1|]. split; [exact A2|]. split; [exact A3|]. split; [exact A4|].
    split; [exact (holds_holding dim SIZE cells nodes npart0 epart st VS bcp vsp _ _ A5)|]. split; [exact A6|]. split; [exact A7|]. split; [exact A8|]. intros Q. destruct (A9 Q) as (SH & NV). exact (shown_nodes dim SIZE cells nodes labels npart0 epart st VM VS RP bc vs Y (sk_ne s) SH NV).
  - exact H.
  - destruct H as (n & t & dt & X' & XI' & Y & YI & B & Q). exists n, t, dt, X', XI', Y, YI. split; [lia | exact Q].
Qed.
Print Assumptions C83_streamer.
(** Without these gradients (class StreamerModel of first order, its default): in the first turn the drift into every cell is computed as if the cells of other ranks and everything outside
    the mesh were empty. *)
Theorem C83_first_turn : forall f32 dim SIZE cells nodes labels npart0 epart condn condP,
  let bc := conditions dim condn in let vs := given_values condn in let bcp := conditions dim condP in let vsp := given_values condP in
  regular dim SIZE cells nodes labels npart0 epart bcp vsp -> bc_valid dim bc vs -> corners_whole dim cells labels bc epart ->
  exists st, setup f32 dim SIZE cells nodes labels npart0 epart = Ok st /\
    forall sol n0 i0 p00 X XI P0 order cfl saves backend, sol = SMumps \/ sol = SPetsc ->
      values_of 0%R SIZE (se_domains st) X n0 -> values_of 0%R SIZE (se_domains st) XI i0 -> values_of 0%R SIZE (se_domains st) P0 p00 ->
      order <> 2 -> (0 < cfl)%R -> (forall k e b, zlen (backend k e b) = zlen cells) -> (forall k, solving (zlen cells) (backend k)) ->
    exists P E dt Y YI, ((exists P', poisson dim cells nodes labels bcp vsp (charge_of X XI) P') -> poisson dim cells nodes labels bcp vsp (charge_of X XI) P) /\ velocity_of dim cells nodes labels bcp vsp P E /\
      (0 < dt)%R /\ largest_streamer dim cells nodes E cfl dt /\ blind_step dim cells nodes labels bc vs epart order E dt X XI Y YI /\
      forall tfinal b, saves O dt = Ok b -> (0 < tfinal <= dt)%R ->
        exists s, streamer 1 false order cfl tfinal saves condn condP SIZE st sol backend n0 i0 p00 = Ok (Some (dt, s)) /\ holding SIZE st Y (sk_ne s) /\ values_of 0%R SIZE (se_domains st) YI (sk_ni s).
Proof.
  intros f32 dim SIZE cells nodes labels npart0 epart condn condP bc vs bcp vsp RG BVn CWn. regular_setup f32 RG st E RP CS HX. exists st. split; [exact E|].
  intros sol n0 i0 p00 X XI P0 order cfl saves backend HS HN HI HP NO Hcfl LB SV. pose proof (setup_tc f32 _ _ _ _ _ _ _ _ VM VS E) as TC.
  destruct (streamer_start_ok dim SIZE cells nodes labels npart0 epart st VM PL VS RP SC CS SP condn condP BV BVn sol n0 i0 p00 X XI P0 HS HN HI HP) as (s0 & ss & es & E1 & DS & HB & SY).
  assert (EM : made condn SIZE st n0 = Ok (sk_ne s0)). { pose proof E1 as E2. unfold streamer_start in E2. apply bind_ok in E2 as (ne & A1 & E2). rewrite A1. apply bind_ok in E2 as (a2 & _ & E2). apply bind_ok in E2 as (a3 & _ & E2). apply bind_ok in E2 as (a4 & _ & E2). apply bind_ok in E2 as (a5 & _ & E2). apply bind_ok in E2 as (a6 & _ & E2). injection E2 as <- _ _. reflexivity. }
  pose proof (made_blank dim SIZE cells nodes labels npart0 epart st VM PL VS RP CS condn X n0 (sk_ne s0) BVn HN EM) as BL.
  destruct (streamer_first_ok dim SIZE cells nodes labels npart0 epart st VM PL VS RP SC CS HX SP TC bcp vsp BV CW bc vs BVn CWn order cfl sol ss es (saves O) (backend O) P0 X XI s0 NO Hcfl BL HS DS HB SY (LB O (concat es)) (SV O)) as (P & F & dt & Y & YI & HPo & VP & PD & LS & ST & _ & EO0).
  exists P, F, dt, Y, YI. split; [exact HPo|]. split; [exact VP|]. split; [exact PD|]. split; [exact LS|]. split; [exact ST|].
  intros tfinal b Eb Ht. destruct (EO0 b Eb) as (s' & E2 & DS' & _). unfold streamer. rewrite E1. cbn [bind fst snd streamer_loop]. destruct (Rlt_dec 0 tfinal) as [T|T]; [|lra]. rewrite E2. cbn [bind fst snd].
  destruct (Rlt_dec (0 + dt) tfinal) as [T'|T']; [lra|]. rewrite Rplus_0_l. exists s'. split; [reflexivity|]. split; [exact (holds_holding dim SIZE cells nodes npart0 epart st VS bc vs _ _ (proj1 DS'))|]. exact (proj1 (proj2 DS')).
Qed.
(** The script (saving in every turn) raises no exception.  The program with the class StreamerModel saves every tot-th turn, tot = int(tfinal/dt/50): it raises an exception exactly
    when, after the first turn, the time step is larger than a fiftieth of tfinal: a division by zero. *)
Theorem C83_saving : (forall k dt, saves_script k dt = Ok true) /\
  forall tfinal k dt, (0 < tfinal)%R -> (0 < dt)%R -> (exists b, saves_bis tfinal k dt = Ok b) /\ (k = O \/ 50 * dt <= tfinal)%R \/ saves_bis tfinal k dt = Err ZeroDivision /\ k <> O /\ (tfinal < 50 * dt)%R.
Proof.
  split; [reflexivity|]. intros tfinal k dt HT HD. destruct k as [|k]; [left; split; [exists true; reflexivity | left; reflexivity]|]. unfold saves_bis. set (x := (tfinal / dt / 50)%R).
  assert (EX : tfinal = (x * (50 * dt))%R) by (unfold x; field; lra). assert (PX : (0 < x)%R) by (unfold x; apply Rdiv_lt_0_compat; [apply Rdiv_lt_0_compat; assumption | lra]).
  destruct (base_Int_part x) as (A & B). destruct (Z.eqb_spec (Int_part x) 0) as [E|E].
  - right. split; [reflexivity|]. split; [discriminate|]. rewrite E in B. assert (X1 : (x < 1)%R) by lra. rewrite EX. rewrite <- (Rmult_1_l (50 * dt)) at 2. apply Rmult_lt_compat_r; [lra | exact X1].
  - left. split; [eexists; reflexivity|]. right. assert (G : 1 <= Int_part x). { assert (-1 < Int_part x); [|lia]. apply lt_IZR. lra. } apply IZR_le in G. rewrite EX. rewrite <- (Rmult_1_l (50 * dt)) at 1. apply Rmult_le_compat_r; lra.
Qed.

(** C84.  Where each charge has exactly one discrete potential, the result does not depend on the number of ranks, the distribution of the cells, the initial potential, the solvers or
    (in second order) on whether script or class is used: both programs end after the same time with the same densities, or neither has ended, or both raise the same exception. *)
Theorem C84_same_result : forall f32 dim cells nodes labels condn condP SIZE npart0 epart SIZE' npart0' epart',
  let bc := conditions dim condn in let vs := given_values condn in let bcp := conditions dim condP in let vsp := given_values condP in
  regular dim SIZE cells nodes labels npart0 epart bcp vsp -> regular dim SIZE' cells nodes labels npart0' epart' bcp vsp -> bc_valid dim bc vs -> corners_whole dim cells labels bc epart -> corners_whole dim cells labels bc epart' ->
  sides_closed dim cells nodes labels bcp vsp -> one_potential dim cells nodes labels bcp vsp ->
  exists st st', setup f32 dim SIZE cells nodes labels npart0 epart = Ok st /\ setup f32 dim SIZE' cells nodes labels npart0' epart' = Ok st' /\
    forall sol sol' n0 i0 p00 n0' i0' p00' X XI P0 P0' fresh fresh' order cfl tfinal saves backend backend' fuel, sol = SMumps \/ sol = SPetsc -> sol' = SMumps \/ sol' = SPetsc ->
      values_of 0%R SIZE (se_domains st) X n0 -> values_of 0%R SIZE (se_domains st) XI i0 -> values_of 0%R SIZE (se_domains st) P0 p00 ->
      values_of 0%R SIZE' (se_domains st') X n0' -> values_of 0%R SIZE' (se_domains st') XI i0' -> values_of 0%R SIZE' (se_domains st') P0' p00' ->
      (0 < cfl)%R -> fresh = true \/ order = 2 -> fresh' = true \/ order = 2 -> (forall k e b, zlen (backend k e b) = zlen cells) -> (forall k, solving (zlen cells) (backend k)) ->
      (forall k e b, zlen (backend' k e b) = zlen cells) -> (forall k, solving (zlen cells) (backend' k)) ->
    match streamer fuel fresh order cfl tfinal saves condn condP SIZE st sol backend n0 i0 p00, streamer fuel fresh' order cfl tfinal saves condn condP SIZE' st' sol' backend' n0' i0' p00' with
    | Ok (Some (t, s)), Ok (Some (t', s')) => t = t' /\ exists Y YI, holding SIZE st Y (sk_ne s) /\ holding SIZE' st' Y (sk_ne s') /\ values_of 0%R SIZE (se_domains st) YI (sk_ni s) /\ values_of 0%R SIZE' (se_domains st') YI (sk_ni s')
    | Ok None, Ok None => True
    | Err e, Err e' => e = e'
    | _, _ => False
    end.
Proof.
  intros f32 dim cells nodes labels condn condP SIZE npart0 epart SIZE' npart0' epart' bc vs bcp vsp RG RG' BVn CWn CWn' SD ONE.
  destruct (C83_streamer f32 _ _ _ _ _ _ _ condn condP RG BVn CWn) as (st & E & H). destruct (C83_streamer f32 _ _ _ _ _ _ _ condn condP RG' BVn CWn') as (st' & E' & H'). exists st, st'. split; [exact E|]. split; [exact E'|].
  intros sol sol' n0 i0 p00 n0' i0' p00' X XI P0 P0' fresh fresh' order cfl tfinal saves backend backend' fuel HS HS' A1 A2 A3 B1 B2 B3 Hc FO FO' LB SV LB' SV'.
  specialize (H sol n0 i0 p00 X XI P0 fresh order cfl tfinal saves backend fuel HS A1 A2 A3 Hc FO LB SV). specialize (H' sol' n0' i0' p00' X XI P0' fresh' order cfl tfinal saves backend' fuel HS' B1 B2 B3 Hc FO' LB' SV').
  pose proof (rg_mesh _ _ _ _ _ _ _ _ _ RG) as VM. pose proof (rg_split _ _ _ _ _ _ _ _ _ RG') as VS'. cbv zeta in H, H'.
  set (flow := streamer_flow dim cells nodes labels bc vs bcp vsp order cfl tfinal X XI) in *.
  assert (UN : forall n t Y YI t' Y' YI', flow n t Y YI -> flow n t' Y' YI' -> t = t' /\ (forall c, iscell cells c -> Y c = Y' c) /\ (forall c, iscell cells c -> YI c = YI' c)) by (exact (streamer_unique dim cells nodes labels VM bc vs bcp vsp order cfl tfinal X X XI XI SD ONE (fun _ _ => eq_refl) (fun _ _ => eq_refl))).
  assert (BF : forall n t Y YI, flow n t Y YI -> forall m t' Y' YI', (m < n)%nat -> flow m t' Y' YI' -> (t' < tfinal)%R). { intros n t Y YI F m t' Y' YI' L F'. destruct (streamer_before dim cells nodes labels bc vs bcp vsp order cfl tfinal X XI n t Y YI F m L) as (t2 & Y2 & I2 & F2 & B). destruct (UN _ _ _ _ _ _ _ F' F2) as (-> & _). exact B. }
  set (turned := fun m => exists t dt Y YI Y' YI' b, (0 < dt)%R /\ flow m t Y YI /\ flow (Datatypes.S m) (t + dt)%R Y' YI' /\ saves m dt = Ok b) in *.
  assert (TE : forall m t dt Y1 I1 Y2 I2 e, turned m -> flow m t Y1 I1 -> flow (Datatypes.S m) (t + dt)%R Y2 I2 -> saves m dt = Err e -> False).
  { intros m t dt Y1 I1 Y2 I2 e (t' & dt' & Y3 & I3 & Y4 & I4 & b & _ & F1 & F2 & Q) G1 G2 Q'. destruct (UN _ _ _ _ _ _ _ F1 G1) as (-> & _). destruct (UN _ _ _ _ _ _ _ F2 G2) as (D & _). assert (dt' = dt) by lra. subst. congruence. }
  destruct (streamer fuel fresh order cfl tfinal saves condn condP SIZE st sol backend n0 i0 p00) as [[(t, s)|]|e]; destruct (streamer fuel fresh' order cfl tfinal saves condn condP SIZE' st' sol' backend' n0' i0' p00') as [[(t', s')|]|e'].
  - destruct H as (n & Y & YI & _ & F & T & _ & HY & HI & _). destruct H' as (n' & Y' & YI' & _ & F' & T' & _ & HY' & HI' & _). destruct (Nat.lt_trichotomy n n') as [L|[L|L]]; [pose proof (BF _ _ _ _ F' n t Y YI L F); lra | | pose proof (BF _ _ _ _ F n' t' Y' YI' L F'); lra].
    subst n'. destruct (UN _ _ _ _ _ _ _ F F') as (-> & EY & EI). split; [reflexivity|]. exists Y, YI. split; [exact HY|]. split; [exact (holding_same f32 dim SIZE' cells nodes labels npart0' epart' st' Y' Y _ VM VS' E' (fun c Hc => eq_sym (EY c Hc)) HY')|]. split; [exact HI|].
    destruct (C68_parallel_setup f32 _ _ _ _ _ _ _ VM VS') as (s2 & ES & RP & _). rewrite E' in ES. injection ES as <-. destruct HI' as (L1 & L2). split; [exact L1|]. intros r Hr. destruct (L2 r Hr) as (M1 & M2). split; [exact M1|]. intros c Hc'. rewrite (M2 c Hc'), EI; [reflexivity|]. apply (gcell_owned dim cells nodes labels epart' r _ (rp_part _ _ _ _ _ _ _ RP r Hr) c Hc').
  - destruct H as (n & Y & YI & Ln & F & T & _). destruct H' as (t' & Y' & YI' & F' & T' & _). destruct (Nat.eq_dec n fuel) as [->|NE]; [destruct (UN _ _ _ _ _ _ _ F F'); lra | pose proof (BF _ _ _ _ F' n t Y YI ltac:(lia) F); lra].
  - destruct H as (n & Y & YI & Ln & F & T & TU & _). destruct H' as (n' & t' & dt & X1 & I1 & X2 & I2 & Ln' & _ & F1 & F2 & Q & _). destruct (Nat.lt_ge_cases n' n) as [L|L]; [exact (TE n' t' dt X1 I1 X2 I2 e' (TU n' L) F1 F2 Q)|]. pose proof (BF _ _ _ _ F2 n t Y YI ltac:(lia) F). lra.
  - destruct H' as (n & Y & YI & Ln & F & T & _). destruct H as (t & Y' & YI' & F' & T' & _). destruct (Nat.eq_dec n fuel) as [->|NE]; [destruct (UN _ _ _ _ _ _ _ F F'); lra | pose proof (BF _ _ _ _ F' n t' Y YI ltac:(lia) F); lra].
  - exact I.
  - destruct H as (t & Y & YI & F & T & TU). destruct H' as (n' & t' & dt & X1 & I1 & X2 & I2 & Ln' & _ & F1 & F2 & Q & _). exact (TE n' t' dt X1 I1 X2 I2 e' (TU n' Ln') F1 F2 Q).
  - destruct H' as (n & Y & YI & Ln & F & T & TU & _). destruct H as (n' & t & dt & X1 & I1 & X2 & I2 & Ln' & _ & F1 & F2 & Q & _). destruct (Nat.lt_ge_cases n' n) as [L|L]; [exact (TE n' t dt X1 I1 X2 I2 e (TU n' L) F1 F2 Q)|]. pose proof (BF _ _ _ _ F2 n t' Y YI ltac:(lia) F). lra.
  - destruct H' as (t' & Y & YI & F & T & TU). destruct H as (n & t & dt & X1 & I1 & X2 & I2 & Ln' & _ & F1 & F2 & Q & _). exact (TE n t dt X1 I1 X2 I2 e (TU n Ln') F1 F2 Q).
  - destruct H as (n & t & dt & X1 & I1 & X2 & I2 & Ln & _ & F1 & F2 & Q & TU). destruct H' as (n' & t' & dt' & X1' & I1' & X2' & I2' & Ln' & _ & F1' & F2' & Q' & TU'). destruct (Nat.lt_trichotomy n n') as [L|[L|L]]; [exfalso; exact (TE n t dt X1 I1 X2 I2 e (TU' n L) F1 F2 Q) | | exfalso; exact (TE n' t' dt' X1' I1' X2' I2' e' (TU n' L) F1' F2' Q')].
    subst n'. destruct (UN _ _ _ _ _ _ _ F1 F1') as (-> & _). destruct (UN _ _ _ _ _ _ _ F2 F2') as (D & _). assert (dt = dt') by lra. subst dt'. congruence.
Qed.
Print Assumptions C84_same_result.

(** C85.  The balance of a turn.  The sum of volume times net charge (electrons minus ions) changes by the electrons that enter through the boundary of the mesh only; the ions grow by
    the pairs produced; where there are not less than 0 electrons the ions do not decrease. *)
Theorem C85_balance : forall dim cells nodes labels bc vs bcp vsp order dt P E X XI Y YI S L N G,
  valid_mesh dim cells nodes labels -> velocity_of dim cells nodes labels bcp vsp P E -> streamer_step dim cells nodes labels bc vs order E dt X XI Y YI -> reconstruction dim cells nodes labels bc vs X S L N G ->
  let sum f := rsum (map (fun c => measure_of cells nodes c * f c)%R (range (zlen cells))) in
  sum (fun c => Y c - YI c)%R = (sum (fun c => X c - XI c) + dt * rsum (map (fun p => electrons_entering dim cells nodes labels bc vs order E X S L G (fst p) (snd p)) (boundary_facets cells)))%R /\
  sum YI = (sum XI + dt * sum (produced dim cells E X))%R /\
  forall c, iscell cells c -> (0 <= dt)%R -> (0 <= X c)%R -> (XI c <= YI c)%R.
Proof.
  intros dim cells nodes labels bc vs bcp vsp order dt P E X XI Y YI S L N G VM HV HS HR sum.
  destruct (streamer_balance dim cells nodes labels VM bc vs order E dt X XI Y YI S L N G (fun c d F HF EB => velocity_swap dim cells nodes labels VM bcp vsp P E c d F HV HF EB) HR HS) as (A & B).
  split; [exact A|]. split; [exact B|]. intros c Hc Hd HX. destruct HS as (S' & L' & N' & G' & _ & Q). destruct (Q c Hc) as (_ & ->). assert (0 <= dt * produced dim cells E X c)%R; [|lra]. apply Rmult_le_pos; [exact Hd|]. apply pairs_nonneg. exact HX.
Qed.
Print Assumptions C85_balance.
(** Gauss's law: the flux of the field out of a cell is the charge in it (ions minus electrons, times the constant of the program). *)
Theorem C85_gauss : forall dim cells nodes labels bcp vsp P E X XI, valid_mesh dim cells nodes labels -> sides_closed dim cells nodes labels bcp vsp -> poisson dim cells nodes labels bcp vsp (charge_of X XI) P ->
  velocity_of dim cells nodes labels bcp vsp P E -> forall c, iscell cells c ->
  rsum (map (fun F => vdot (E c F) (outward cells nodes c F)) (facets (cell cells c))) = (measure_of cells nodes c * (18096 / 1000000000000 * (XI c - X c)))%R.
Proof.
  intros dim cells nodes labels bcp vsp P E X XI VM SD HP HV c Hc. rewrite (velocity_divergence dim cells nodes labels VM bcp vsp P E _ SD HP HV c Hc). unfold charge_of, poisson_rhs. ring.
Qed.
Lemma rest_regular f32 dim SIZE cells nodes labels npart0 epart bc vs bcp vsp k : regular dim SIZE cells nodes labels npart0 epart bcp vsp -> sides_closed dim cells nodes labels bcp vsp -> one_potential dim cells nodes labels bcp vsp ->
  (forall l p, In (l, BDirichlet) bcp -> prescribed_at vsp l p = k) -> (exists st, setup f32 dim SIZE cells nodes labels npart0 epart = Ok st) ->
  forall order cfl tfinal X n t Y YI, streamer_flow dim cells nodes labels bc vs bcp vsp order cfl tfinal X X n t Y YI ->
  t = (INR n * 1000000)%R /\ (forall c, iscell cells c -> Y c = X c) /\ (forall c, iscell cells c -> YI c = X c).
Proof.
  intros RG SD ONE HK (st & E) order cfl tfinal X. pose proof (rg_mesh _ _ _ _ _ _ _ _ _ RG) as VM. pose proof (rg_split _ _ _ _ _ _ _ _ _ RG) as VS.
  assert (PK : poisson dim cells nodes labels bcp vsp (fun _ => 0%R) (fun _ => k)).
  { destruct (C74_operator f32 _ _ _ _ _ _ _ _ _ RG) as (st2 & E2 & OP). rewrite E in E2. injection E2 as <-. destruct (C70_any_field f32 _ _ _ _ _ _ _ _ _ X RG) as (st2 & E2 & l & HH & _). rewrite E in E2. injection E2 as <-.
    destruct (OP l SMumps _ _ _ _ HH I (no_source dim SIZE cells nodes npart0 epart st VS SMumps (or_introl eq_refl)) (no_source dim SIZE cells nodes npart0 epart st VS SMumps (or_introl eq_refl))) as (ss & es & b & _ & _ & _ & _ & _ & LP).
    intros c Hcl. destruct (LP (fun _ => k) c Hcl) as (a & y & _ & _ & L). pose proof (C74_constant dim cells nodes labels bcp vsp k (fun _ => k) c VM HK (fun _ _ => eq_refl) Hcl _ L) as Z0. rewrite Z0 in L. exact L. }
  assert (EZ : forall E0, velocity_of dim cells nodes labels bcp vsp (fun _ => k) E0 -> forall c F, iscell cells c -> In F (facets (cell cells c)) -> E0 c F = vzero).
  { intros E0 (N & HNd & HSl) c F Hcl HF. apply vneg_inj. transitivity vzero; [|unfold Spec_linsys.vneg, vzero; cbn [px py pz]; f_equal; ring].
    refine (C76_constant dim cells nodes labels bcp vsp k (fun _ => k) N c F _ VM HK (fun _ _ => eq_refl) Hcl HF HNd _ (HSl c F Hcl HF)).
    destruct (beside cells c F) as [d|] eqn:EB; [left; discriminate|]. right. destruct (facet_fixed dim nodes labels bcp vsp F) as [y|] eqn:EF; [right|left; reflexivity].
    intros g Hg. apply (SD c F g); [|rewrite EF; discriminate | exact Hg]. unfold boundary_facets. apply in_flat_map. exists c. split; [apply in_range; exact Hcl|]. apply in_map_iff. exists F. split; [reflexivity|]. apply filter_In. rewrite EB. auto. }
  exact (streamer_rest dim cells nodes labels VM bc vs bcp vsp order cfl tfinal k X X SD (proj2 (ONE (fun _ => 0%R))) PK EZ (fun _ _ => eq_refl)).
Qed.
(** Rest: as many ions as electrons everywhere and the same value on all the electrodes: the field is zero, nothing changes, and every turn lasts 10^6, on any number of ranks, whatever
    the solver that solves. *)
Theorem C85_rest : forall f32 dim SIZE cells nodes labels npart0 epart condn condP k,
  let bc := conditions dim condn in let vs := given_values condn in let bcp := conditions dim condP in let vsp := given_values condP in
  regular dim SIZE cells nodes labels npart0 epart bcp vsp -> bc_valid dim bc vs -> corners_whole dim cells labels bc epart -> sides_closed dim cells nodes labels bcp vsp -> one_potential dim cells nodes labels bcp vsp ->
  (forall l p, In (l, BDirichlet) bcp -> prescribed_at vsp l p = k) ->
  exists st, setup f32 dim SIZE cells nodes labels npart0 epart = Ok st /\
    forall sol n0 i0 p00 X P0 fresh order cfl tfinal backend fuel, sol = SMumps \/ sol = SPetsc ->
      values_of 0%R SIZE (se_domains st) X n0 -> values_of 0%R SIZE (se_domains st) X i0 -> values_of 0%R SIZE (se_domains st) P0 p00 ->
      (0 < cfl)%R -> fresh = true \/ order = 2 -> (forall k e b, zlen (backend k e b) = zlen cells) -> (forall k, solving (zlen cells) (backend k)) ->
    match streamer fuel fresh order cfl tfinal saves_script condn condP SIZE st sol backend n0 i0 p00 with
    | Ok (Some (t, s)) => exists n, (n <= fuel)%nat /\ t = (INR n * 1000000)%R /\ (tfinal <= t)%R /\ (forall m, (m < n)%nat -> (INR m * 1000000 < tfinal)%R) /\ holding SIZE st X (sk_ne s) /\ values_of 0%R SIZE (se_domains st) X (sk_ni s)
    | Ok None => (INR fuel * 1000000 < tfinal)%R
    | Err e => False
    end.
Proof.
  intros f32 dim SIZE cells nodes labels npart0 epart condn condP k bc vs bcp vsp RG BVn CWn SD ONE HK. destruct (C83_streamer f32 _ _ _ _ _ _ _ condn condP RG BVn CWn) as (st & E & H). exists st. split; [exact E|].
  intros sol n0 i0 p00 X P0 fresh order cfl tfinal backend fuel HS HN HI HP Hc FO LB SV. specialize (H sol n0 i0 p00 X X P0 fresh order cfl tfinal saves_script backend fuel HS HN HI HP Hc FO LB SV). cbv zeta in H.
  pose proof (rg_mesh _ _ _ _ _ _ _ _ _ RG) as VM. pose proof (rg_split _ _ _ _ _ _ _ _ _ RG) as VS.
  pose proof (rest_regular f32 dim SIZE cells nodes labels npart0 epart bc vs bcp vsp k RG SD ONE HK (ex_intro _ st E) order cfl tfinal X) as RS.
  destruct (streamer fuel fresh order cfl tfinal saves_script condn condP SIZE st sol backend n0 i0 p00) as [[(t, s)|]|e].
  - destruct H as (n & Y & YI & Ln & F & T & _ & HY & HIY & _). destruct (RS n t Y YI F) as (ET & EY & EI). exists n. split; [exact Ln|]. split; [exact ET|]. split; [exact T|]. split.
    + intros m Hm. destruct (streamer_before dim cells nodes labels bc vs bcp vsp order cfl tfinal X X n t Y YI F m Hm) as (t2 & Y2 & I2 & F2 & B). destruct (RS m t2 Y2 I2 F2) as (<- & _). exact B.
    + split; [exact (holding_same f32 dim SIZE cells nodes labels npart0 epart st Y X _ VM VS E EY HY)|].
      destruct (C68_parallel_setup f32 _ _ _ _ _ _ _ VM VS) as (s2 & ES & RP & _). rewrite E in ES. injection ES as <-. destruct HIY as (L1 & L2). split; [exact L1|]. intros r Hr. destruct (L2 r Hr) as (M1 & M2). split; [exact M1|]. intros c Hc'. rewrite (M2 c Hc'). apply EI. apply (gcell_owned dim cells nodes labels epart r _ (rp_part _ _ _ _ _ _ _ RP r Hr) c Hc').
  - destruct H as (t & Y & YI & F & T & _). destruct (RS fuel t Y YI F) as (<- & _). exact T.
  - destruct H as (n & t & dt & X1 & I1 & X2 & I2 & _ & _ & _ & _ & Q & _). discriminate Q.
Qed.
Print Assumptions C85_rest.
