(** * Proofs_run36: the streamer on the mesh: one result, balance of the charges, rest (C84, C85). *)
From Coq Require Import Reals Rpower Lra Psatz Permutation Sorted.
From Verif Require Import Py PyLemmas Model_part Spec_part Model_label Model_conn Spec_conn Proofs_conn1 Proofs_conn2 Model_geom Spec_geom Proofs_geom1 Proofs_geom2 Proofs_geom3
  Model_halo Spec_halo Model_interp Spec_interp Proofs_interp4 Proofs_interp5 Proofs_interp6 Spec_lsq Proofs_lsq Properties_lsq Model_fvm Spec_fvm Proofs_fvm1 Proofs_fvm2 Properties_fvm Model_bc Spec_bc Spec_bc3 Proofs_label Proofs_bc Proofs_bc2 Proofs_bc3 Properties_bc3 Model_domain Spec_domain Proofs_domain1 Proofs_domain4
  Model_comm Model_parallel Spec_parallel Proofs_parallel1 Proofs_parallel6 Properties_parallel Model_run Spec_run Proofs_run1 Proofs_run2 Proofs_run3 Proofs_run4 Proofs_run5 Proofs_run6 Spec_run2 Model_run2 Proofs_run7 Proofs_run8 Proofs_run9 Proofs_run10 Proofs_run11 Proofs_run12 Proofs_run13 Proofs_run14 Proofs_run15 Spec_run3 Proofs_run16
  Model_poisson Spec_poisson Proofs_poisson1 Proofs_poisson2 Proofs_poisson3 Spec_poisson2 Spec_poisson3 Proofs_poisson4 Proofs_poisson6 Proofs_poisson7 Proofs_poisson8 Proofs_poisson9 Proofs_poisson10 Model_run4 Spec_run6 Proofs_run30 Proofs_run31 Proofs_run32 Proofs_run33 Model_run5 Spec_run7.
From Verif Require Model_linsys Spec_linsys.
Open Scope Z_scope.

From Verif Require Model_streamer.
From Verif Require Import Spec_streamer.
From Verif Require Proofs_streamer Proofs_streamer2 Properties_streamer.
From Verif Require Import Proofs_run34.


Lemma ionisation_nonneg r : (0 <= ionisation r)%R.
Proof. unfold ionisation. destruct (Rle_dec r 0); [lra|]. destruct (Rle_dec r _); (apply Rmult_le_pos; [lra | left; apply exp_pos]). Qed.
Lemma pairs_nonneg e u x : (0 <= x)%R -> (0 <= pairs e u x)%R.
Proof.
  intros Hx. unfold pairs. apply Rmult_le_pos; [|unfold N_gas; lra]. apply Rmult_le_pos; [|exact Hx]. apply Rmult_le_pos; [apply ionisation_nonneg | apply Proofs_streamer.vlen_nonneg].
Qed.
Lemma pairs_rest x : pairs vzero vzero x = 0%R.
Proof. unfold pairs. rewrite Proofs_streamer.vlen_zero. ring. Qed.
Lemma diffusivity_rest u : electron_diffusivity vzero u = 0%R.
Proof. unfold electron_diffusivity. rewrite Proofs_streamer.vlen_zero. destruct (Req_EM_T 0 0); [reflexivity | contradiction]. Qed.

Section Mesh36.
Context (dim : Z) (cells : list (list Z)) (nodes : list pt) (labels : list Z).
Hypothesis VM : valid_mesh dim cells nodes labels.
Notation same X X' := (forall c, iscell cells c -> X c = X' c).
Notation samev V V' := (forall c F, iscell cells c -> In F (facets (cell cells c)) -> V c F = V' c F).
Lemma drift_same E E' : samev E E' -> samev (fun c F => drift (E c F)) (fun c F => drift (E' c F)).
Proof. intros H c F Hc HF. cbv beta. rewrite (H c F Hc HF). reflexivity. Qed.
Lemma streamer_cfl_same E E' cfl dt : samev E E' -> streamer_cfl dim cells nodes E cfl dt -> streamer_cfl dim cells nodes E' cfl dt.
Proof.
  intros HE (A & B). split; [exact A|]. intros c Hc e u NZ. specialize (B c Hc). cbv zeta in B. unfold e, u in *. rewrite (mean_same dim cells E E' HE c Hc), (mean_same dim cells _ _ (drift_same E E' HE) c Hc) in B. exact (B NZ).
Qed.
Lemma streamer_time_unique E E' cfl dt dt' : samev E E' -> largest_streamer dim cells nodes E cfl dt -> largest_streamer dim cells nodes E' cfl dt' -> dt = dt'.
Proof.
  intros HE (A & B) (A' & B'). apply Rle_antisym; [apply B'; exact (streamer_cfl_same E E' cfl dt HE A)|]. apply B. apply (streamer_cfl_same E' E); [|exact A']. intros c F Hc HF. symmetry. exact (HE c F Hc HF).
Qed.
Lemma produced_same E E' X X' : samev E E' -> same X X' -> same (produced dim cells E X) (produced dim cells E' X').
Proof. intros HE EX c Hc. unfold produced. rewrite (mean_same dim cells E E' HE c Hc), (mean_same dim cells _ _ (drift_same E E' HE) c Hc), (EX c Hc). reflexivity. Qed.
Context (bc : list (loc * bctype)) (vs : list (loc * bcval)).
Notation recon := (reconstruction dim cells nodes labels bc vs).
Notation step := (streamer_step dim cells nodes labels bc vs).
Notation enters := (electrons_entering dim cells nodes labels bc vs).
Lemma enters_same order E E' X X' S P N G S' P' N' G' : samev E E' -> same X X' -> recon X S P N G -> recon X' S' P' N' G' -> samev (enters order E X S P G) (enters order E' X' S' P' G').
Proof.
  intros HE EX Rc Rc' c F Hc HF. destruct (reconstruction_unique dim cells nodes labels bc vs VM _ _ _ _ _ _ _ _ _ _ EX Rc Rc') as (E1 & _ & E3). unfold electrons_entering. cbv zeta. rewrite (HE c F Hc HF).
  apply entering_same; [exact EX | exact E1 | exact Hc | apply E3; assumption].
Qed.
Lemma streamer_step_unique order E E' dt X X' XI XI' Y YI Y' YI' : samev E E' -> same X X' -> same XI XI' -> step order E dt X XI Y YI -> step order E' dt X' XI' Y' YI' -> same Y Y' /\ same YI YI'.
Proof.
  intros HE EX EI (S & P & N & G & Rc & H) (S' & P' & N' & G' & Rc' & H'). split; intros c Hc; destruct (H c Hc) as (A & B), (H' c Hc) as (A' & B').
  - rewrite A, A', (EX c Hc), (produced_same E E' X X' HE EX c Hc). do 4 f_equal. f_equal. apply map_ext_in. intros F HF. exact (enters_same order E E' X X' S P N G S' P' N' G' HE EX Rc Rc' c F Hc HF).
  - rewrite B, B', (EI c Hc), (produced_same E E' X X' HE EX c Hc). reflexivity.
Qed.
(** *** the balance *)
Notation sum f := (rsum (map f (range (zlen cells)))).
Notation vol c := (measure_of cells nodes c).
Lemma streamer_balance order E dt X XI Y YI S P N G : (forall c d F, has_facet dim cells c F -> beside cells c F = Some d -> E d F = E c F) -> recon X S P N G -> step order E dt X XI Y YI ->
  sum (fun c => vol c * (Y c - YI c))%R = (sum (fun c => vol c * (X c - XI c)) + dt * rsum (map (fun p => enters order E X S P G (fst p) (snd p)) (boundary_facets cells)))%R /\
  sum (fun c => vol c * YI c)%R = (sum (fun c => vol c * XI c) + dt * sum (fun c => vol c * produced dim cells E X c))%R.
Proof.
  intros SW Rc (S' & P' & N' & G' & Rc' & H). split.
  - rewrite <- (sum_boundary_facets dim cells nodes labels (enters order E X S P G) VM), <- rsum_map_scal, <- rsum_map_add.
    + apply rsum_map_ext. intros c Hc. apply in_range in Hc. destruct (H c Hc) as (A & B). rewrite A, B. pose proof (cell_positive dim cells nodes labels c VM Hc).
      rewrite (map_ext_in _ _ _ (fun F HF => enters_same order E E X X S' P' N' G' S P N G (fun _ _ _ _ => eq_refl) (fun _ _ => eq_refl) Rc' Rc c F Hc HF)). field. lra.
    + intros c d F HF EB. unfold electrons_entering. cbv zeta. rewrite (SW c d F HF EB). apply (entering_opposite dim cells nodes labels bc vs VM order _ _ X S P N G c d F Rc HF EB).
  - rewrite <- rsum_map_scal, <- rsum_map_add. apply rsum_map_ext. intros c Hc. apply in_range in Hc. destruct (H c Hc) as (_ & ->). ring.
Qed.
(** *** no field: nothing moves *)
Lemma mean_zero E c : iscell cells c -> (forall F, In F (facets (cell cells c)) -> E c F = vzero) -> mean_velocity dim cells E c = vzero.
Proof.
  intros Hc H. unfold mean_velocity. rewrite (map_ext_in _ (fun _ => vzero) _ H). replace (vsum (map (fun _ : list Z => vzero) (facets (cell cells c)))) with vzero; [unfold vscal, vzero; cbn [px py pz]; f_equal; ring|].
  clear H. induction (facets (cell cells c)) as [|F l IH]; [reflexivity|]. cbn [map]. change (vzero = vadd vzero (vsum (map (fun _ : list Z => vzero) l))). rewrite <- IH. unfold vadd, vzero. cbn [px py pz]. f_equal; ring.
Qed.
Lemma step_no_field order E dt X XI Y YI : samev E (fun _ _ => vzero) -> step order E dt X XI Y YI -> same Y X /\ same YI XI.
Proof.
  intros EZ (S & P & N & G & Rc & H).
  assert (PZ : forall c, iscell cells c -> produced dim cells E X c = 0%R).
  { intros c Hc. unfold produced. rewrite !mean_zero; [apply pairs_rest | exact Hc | | exact Hc | intros F HF; exact (EZ c F Hc HF)]. intros F HF. cbv beta. rewrite (EZ c F Hc HF). apply drift_zero. }
  split; intros c Hc; destruct (H c Hc) as (A & B).
  - rewrite A, (PZ c Hc). rewrite (rsum_map_ext _ (fun _ => 0%R)); [rewrite rsum_map_zero by reflexivity; unfold Rdiv; ring|]. intros F HF. unfold electrons_entering. cbv zeta. rewrite (EZ c F Hc HF), drift_zero, diffusivity_rest.
    unfold entering, diffused, carried. cbv zeta. replace (vdot vzero (outward cells nodes c F)) with 0%R by (unfold vdot, vzero; cbn [px py pz]; ring). unfold vdot. cbn [px py pz]. destruct (Rle_dec 0 0); [|lra]. ring.
  - rewrite B, (PZ c Hc). ring.
Qed.
Lemma time_no_field E cfl dt : samev E (fun _ _ => vzero) -> largest_streamer dim cells nodes E cfl dt -> dt = 1000000%R.
Proof.
  intros EZ (A & B). apply Rle_antisym; [apply A|]. apply B. split; [lra|]. intros c Hc e u NZ. exfalso. apply NZ. apply mean_zero; [exact Hc|]. intros F HF. exact (EZ c F Hc HF).
Qed.

(** *** the loop *)
Context (bcp : list (loc * bctype)) (vsp : list (loc * bcval)) (order : Z) (cfl tfinal : R).
Notation flow := (streamer_flow dim cells nodes labels bc vs bcp vsp order cfl tfinal).
Lemma charge_same X X' XI XI' : same X X' -> same XI XI' -> same (charge_of X XI) (charge_of X' XI').
Proof. intros A B c Hc. unfold charge_of. rewrite (A c Hc), (B c Hc). reflexivity. Qed.
Lemma poisson_source f f' P : same f f' -> poisson dim cells nodes labels bcp vsp f P -> poisson dim cells nodes labels bcp vsp f' P.
Proof. intros A H c Hc. rewrite <- (A c Hc). exact (H c Hc). Qed.
Notation one_potential := (one_potential dim cells nodes labels bcp vsp).
Lemma streamer_unique X0 X0' XI0 XI0' : sides_closed dim cells nodes labels bcp vsp -> one_potential -> same X0 X0' -> same XI0 XI0' ->
  forall n t Y YI t' Y' YI', flow X0 XI0 n t Y YI -> flow X0' XI0' n t' Y' YI' -> t = t' /\ same Y Y' /\ same YI YI'.
Proof.
  intros SD ONE EX EI. induction n as [|n IH]; intros t Y YI t' Y' YI' H H'.
  - inversion H as [? ? HA|]; subst. inversion H' as [? ? HA'|]; subst. split; [reflexivity|]. split; intros c Hc; destruct (HA c Hc) as (A & B), (HA' c Hc) as (A' & B'); [rewrite A, A'; exact (EX c Hc) | rewrite B, B'; exact (EI c Hc)].
  - inversion H as [|n1 t1 X1 XI1 P1 E1 dt1 Y1 YI1 F1 T1 PO1 V1 L1 S1]; subst. inversion H' as [|n2 t2 X2 XI2 P2 E2 dt2 Y2 YI2 F2 T2 PO2 V2 L2 S2]; subst. destruct (IH _ _ _ _ _ _ F1 F2) as (-> & E3 & E4).
    pose proof (charge_same X1 X2 XI1 XI2 E3 E4) as EC. pose proof (PO1 (proj1 (ONE _))) as Q1. pose proof (PO2 (proj1 (ONE _))) as Q2.
    pose proof (proj2 (ONE _) P1 P2 (poisson_source _ _ P1 EC Q1) Q2) as EP. pose proof (velocity_unique dim cells nodes labels VM bcp vsp P1 P2 E1 E2 SD EP V1 V2) as EE.
    rewrite (streamer_time_unique E1 E2 cfl dt1 dt2 EE L1 L2) in *. split; [reflexivity|]. exact (streamer_step_unique order E1 E2 dt2 X1 X2 XI1 XI2 Y YI Y' YI' EE E3 E4 S1 S2).
Qed.
Lemma streamer_before X0 XI0 n t Y YI : flow X0 XI0 n t Y YI -> forall m, (m < n)%nat -> exists t' Y' YI', flow X0 XI0 m t' Y' YI' /\ (t' < tfinal)%R.
Proof.
  induction 1 as [Y YI E|n t X XI P E dt Y YI FL IH Ht HP HV HL HS]; intros m Hm; [lia|]. destruct (Nat.eq_dec m n) as [->|NE]; [exists t, X, XI; auto | apply IH; lia].
Qed.
Lemma streamer_end X0 X0' XI0 XI0' n t Y YI n' t' Y' YI' : sides_closed dim cells nodes labels bcp vsp -> one_potential -> same X0 X0' -> same XI0 XI0' ->
  flow X0 XI0 n t Y YI -> (tfinal <= t)%R -> flow X0' XI0' n' t' Y' YI' -> (tfinal <= t')%R -> n = n' /\ t = t' /\ same Y Y' /\ same YI YI'.
Proof.
  intros SD ONE EX EI F H F' H'. assert (EN : n = n').
  { destruct (Nat.lt_trichotomy n n') as [L|[E|L]]; [|exact E|]; exfalso.
    - destruct (streamer_before _ _ _ _ _ _ F' n L) as (t2 & Y2 & I2 & F2 & B). destruct (streamer_unique X0 X0' XI0 XI0' SD ONE EX EI n t Y YI t2 Y2 I2 F F2). lra.
    - destruct (streamer_before _ _ _ _ _ _ F n' L) as (t2 & Y2 & I2 & F2 & B). destruct (streamer_unique X0 X0' XI0 XI0' SD ONE EX EI n' t2 Y2 I2 t' Y' YI' F2 F'). lra. }
  subst n'. split; [reflexivity|]. exact (streamer_unique X0 X0' XI0 XI0' SD ONE EX EI n t Y YI t' Y' YI' F F').
Qed.
(** neutral, one value on the electrodes, one potential: nothing changes, steps of 10^6 *)
Lemma streamer_rest k X0 XI0 : sides_closed dim cells nodes labels bcp vsp -> (forall P P', poisson dim cells nodes labels bcp vsp (fun _ => 0%R) P -> poisson dim cells nodes labels bcp vsp (fun _ => 0%R) P' -> same P P') ->
  poisson dim cells nodes labels bcp vsp (fun _ => 0%R) (fun _ => k) -> (forall E, velocity_of dim cells nodes labels bcp vsp (fun _ => k) E -> samev E (fun _ _ => vzero)) -> same X0 XI0 ->
  forall n t Y YI, flow X0 XI0 n t Y YI -> t = (INR n * 1000000)%R /\ same Y X0 /\ same YI XI0.
Proof.
  intros SD ONE HK HV EX n t Y YI. induction 1 as [Y YI E|n t X XI P E dt Y YI FL IH Ht HP HVl HL HS].
  - split; [cbn; ring|]. split; intros c Hc; apply (E c Hc).
  - destruct IH as (-> & A & B). assert (C0 : forall c, iscell cells c -> charge_of X XI c = 0%R) by (intros c Hc; unfold charge_of, poisson_rhs; rewrite (A c Hc), (B c Hc), (EX c Hc); ring).
    assert (PK : same P (fun _ => k)). { apply (ONE P (fun _ => k)); [|exact HK]. apply (poisson_source _ _ P C0). apply HP. exists (fun _ => k). apply (poisson_source (fun _ => 0%R)); [intros c Hc; symmetry; exact (C0 c Hc) | exact HK]. }
    pose proof (HV E (velocity_same dim cells nodes labels VM bcp vsp P _ E PK HVl)) as EZ. rewrite (time_no_field E cfl dt EZ HL). destruct (step_no_field order E dt X XI Y YI EZ HS) as (A' & B'). split; [rewrite S_INR; ring|].
    split; intros c Hc; [rewrite (A' c Hc); exact (A c Hc) | rewrite (B' c Hc); exact (B c Hc)].
Qed.
End Mesh36.
