(** * Properties_per2: saving on periodic meshes (C93), on one rank. *)
From Coq Require Import String Reals Lra Permutation Sorted.
From Verif Require Import Py PyLemmas Model_part Spec_part Model_label Proofs_label Model_conn Spec_conn Proofs_conn1 Proofs_conn2 Model_geom Spec_geom Model_periodic Spec_periodic Model_interp Spec_interp Model_fvm Spec_fvm
  Model_bc Spec_bc Proofs_bc2 Model_domain Spec_domain Proofs_domain1 Proofs_domain4 Model_parallel Spec_parallel Proofs_parallel1
  Properties_parallel Model_comm Model_run Spec_run Spec_run2 Model_run2 Spec_run3 Proofs_run1 Proofs_run2 Proofs_run3 Proofs_run4 Proofs_run5 Proofs_run7.
From Verif Require Import Spec_per Proofs_per2 Proofs_per3 Proofs_per5 Proofs_per7 Proofs_per8 Properties_per.
From Verif Require Import Model_sw Model_run3 Spec_run4 Model_save Spec_save Model_run6 Spec_run8 Proofs_run38 Model_per2 Proofs_per9.
From Verif Require Properties_run6.
Open Scope Z_scope.

(** C91.  On a periodic mesh a save writes the field on the whole mesh just so; it does not wrap around. *)
Theorem C91_periodic : forall f32 dim cells nodes labels npart0 epart, periodic_mesh dim cells nodes labels f32 -> valid_split dim 1 cells nodes npart0 epart ->
  exists st, setup f32 dim 1 cells nodes labels npart0 epart = Ok st /\
    forall fld values dt time niter miter F, passed 1 st fld values ->
    exists F' rep, save (on_cells fld) [0] 1 st dt time niter miter values F = Ok (F', rep) /\ saved dim 1 cells nodes fld miter F' /\
      largest cells fld (rp_max rep) /\ rp_niter rep = niter /\ rp_time rep = time /\ rp_dt rep = dt /\ (forall m, fs_pvtu F' m = fs_pvtu F m) /\
      forall m, m <> miter -> forall r, fs_vtu F' r m = fs_vtu F r m.
Proof.
  intros f32 dim cells nodes labels npart0 epart PM VS. destruct (save_per f32 dim cells nodes labels npart0 epart PM VS) as (D & E & _ & SV). eexists. split; [exact E|].
  intros fld values dt time niter miter F PS. destruct (SV fld values [0] dt time niter miter F PS (Permutation_refl _)) as (F' & rep & ES & SD & LA & A & B & C & _ & PV & OT). exists F', rep.
  repeat (split; [assumption|]). split; [exact (PV eq_refl)|]. intros m Hm. exact (proj2 (OT m Hm)).
Qed.
Print Assumptions C91_periodic.

Section Run.
Context (f32 : R -> R) (dim : Z) (cells : list (list Z)) (nodes : list pt) (labels npart0 epart : list Z) (D D1 : domain).
Hypothesis PM : periodic_mesh dim cells nodes labels f32.
Hypothesis VS : valid_split dim 1 cells nodes npart0 epart.
Hypothesis TW : twins f32 dim cells nodes labels D D1.
Hypothesis PA : part_of dim cells nodes (ones nodes) epart 0 D1.
Hypothesis CS : consistent dim D1.
Hypothesis FD : wf_facedata dim (dom_face D).
Context (bc : list (loc * bctype)) (vs : list (loc * bcval)) (U : pt) (cfl : R).
Hypothesis BV : per_bc_valid dim cells labels bc vs.
Hypothesis HCFL : (0 < cfl)%R.
Hypothesis EL : dm_loctoglob D = range (zlen cells).
Notation st := {| se_domains := [D]; se_comms := []; se_tc := [range (zlen cells)] |}.
Notation state := (state_ok cells D bc vs).
Notation TURN := (turn_per f32 dim cells nodes labels npart0 epart D D1 PM VS TW PA CS FD bc vs U cfl [range (zlen cells)] BV HCFL).
Notation run := (per_run dim cells nodes labels).
Definition per_turn (hs : list held_by) : res (R * R * list held_by) := do q <- turn_of_loop U cfl 1 st hs; ret (fst q, fst q, snd q).
Lemma per_offers X hs : state X hs -> offers 1 st false (map hb_ne hs) (OnCells X).
Proof.
  intros (s & w & -> & (LW & HW) & VI & _). apply offers_cells; [reflexivity|]. exists [w]. cbn [map mapM]. rewrite (vinv_cell _ _ _ _ _ VI). split; [reflexivity|]. split; [reflexivity|]. intros r Hr. replace r with 0 by lia.
  cbn [se_domains]. change (domain_of [D] 0) with D. change (nthZ [] [w] 0) with w. unfold iscell_of, gcell. rewrite EL, zlen_range by apply zlen_nonneg. split; [exact LW|]. intros c Hc. rewrite nthZ_range by exact Hc. apply HW. exact Hc.
Qed.
Lemma per_goes dt tfinal X : largest_step cells nodes U cfl dt -> forall n k hs, state (run k bc vs U dt X) hs -> (tfinal <= INR (k + n) * dt)%R -> (forall m, (m < k + n)%nat -> (INR m * dt < tfinal)%R) ->
  exists ls hs', goes per_turn tfinal (INR k * dt)%R hs ls (INR (k + n) * dt)%R hs' /\ length ls = n /\ (forall x, In x ls -> fst x = dt) /\
    Forall2 (fun x fld => offers 1 st false (map hb_ne (snd x)) fld) ls (map (fun j => OnCells (run j bc vs U dt X)) (seq (Datatypes.S k) n)).
Proof.
  intros HD. induction n as [|n IH]; intros k hs HS T1 T2.
  - rewrite Nat.add_0_r in *. exists [], hs. split; [apply go_done; exact T1|]. split; [reflexivity|]. split; [intros x []|]. constructor.
  - destruct (TURN _ _ HS) as (dt' & hs' & E & _ & LS & HS'). rewrite (largest_unique _ _ _ _ _ _ LS HD) in *. replace (k + Datatypes.S n)%nat with (Datatypes.S k + n)%nat in * by lia.
    destruct (IH (Datatypes.S k) hs' HS' T1 T2) as (ls & hs'' & G & LL & EX & FO). exists ((dt, hs') :: ls), hs''. split; [|split; [cbn [length]; lia|split; [intros x [<-|Hx]; [reflexivity | exact (EX x Hx)]|]]].
    + apply go_turn with (dt := dt); [apply T2; lia | unfold per_turn; rewrite E; reflexivity|]. replace (INR k * dt + dt)%R with (INR (Datatypes.S k) * dt)%R by (rewrite S_INR; ring). exact G.
    + cbn [seq map]. constructor; [|exact FO]. cbn [snd]. apply per_offers. exact HS'.
Qed.
End Run.

(** C93.  The transport program with its saves on a periodic mesh: it never fails; at its end the directory holds, under the numbers 0, 1, 2, ..., the fields the scheme with the facing cells
    gives after the first turn and after every tot-th turn, and nothing else. *)
Theorem C93_periodic : forall f32 dim cells nodes labels npart0 epart bc vs U cfl tfinal ord,
  periodic_mesh dim cells nodes labels f32 -> valid_split dim 1 cells nodes npart0 epart -> per_bc_valid dim cells labels bc vs -> (0 < cfl)%R -> (forall m, Permutation (ord m) [0]) ->
  exists st dt n, setup f32 dim 1 cells nodes labels npart0 epart = Ok st /\ (0 < dt)%R /\ largest_step cells nodes U cfl dt /\
    (tfinal <= INR n * dt)%R /\ (forall m, (m < n)%nat -> (INR m * dt < tfinal)%R) /\
    forall w0 fuel tot F0, zlen w0 = zlen cells -> (n <= fuel)%nat -> 0 < tot -> (IZR (tot - 1) * (50 * dt) <= Rmax 0 tfinal < IZR tot * (50 * dt))%R ->
    exists hs F, periodic_saving_program fuel bc vs U cfl tfinal ord 1 st [w0] F0 = Ok (Some (INR n * dt, hs, F)%R) /\
      directory dim 1 cells nodes (map (fun k => OnCells (per_run dim cells nodes labels (Z.to_nat k) bc vs U dt (nthZ 0%R w0))) (saving_turns tot (Z.of_nat n))) F.
Proof.
  intros f32 dim cells nodes labels npart0 epart bc vs U cfl tfinal ord PM VS BV HC PO. destruct (built f32 dim cells nodes labels npart0 epart PM VS) as (D & D1 & ES & TW & PA & CS & FD & _).
  destruct (save_per f32 dim cells nodes labels npart0 epart PM VS) as (D' & ES' & EL & SV). rewrite ES in ES'. injection ES' as <-.
  pose proof (start_per f32 dim cells nodes labels npart0 epart D D1 PM VS TW PA CS bc vs [range (zlen cells)] BV) as START.
  pose proof (turn_per f32 dim cells nodes labels npart0 epart D D1 PM VS TW PA CS FD bc vs U cfl [range (zlen cells)] BV HC) as TURN.
  destruct (START (fun _ => 0%R) (zeros_like 0%R (zlen cells))) as (h0 & _ & HS0). { split; [apply zlen_zeros_like, zlen_nonneg|]. intros c Hc. apply nthZ_zeros_like. exact Hc. }
  destruct (TURN _ h0 HS0) as (dt & _ & _ & PD & LS & _). destruct (steps dt tfinal PD) as (n & T1 & T2).
  eexists _, dt, n. split; [exact ES|]. split; [exact PD|]. split; [exact LS|]. split; [exact T1|]. split; [exact T2|]. intros w0 fuel tot F0 LW Hf HT TOT. set (X := nthZ 0%R w0).
  destruct (START X w0 (conj LW (fun c _ => eq_refl))) as (hs & EST & HS).
  destruct (per_goes f32 dim cells nodes labels npart0 epart D D1 PM VS TW PA CS FD bc vs U cfl BV HC EL dt tfinal X LS n 0%nat hs HS T1 T2) as (ls & hs' & G & LL & EX & FO).
  cbn [INR Nat.add] in G. rewrite Rmult_0_l in G.
  assert (ET : ls <> [] -> py_int (tfinal / dt / 50)%R + 1 = tot).
  { intros NE. assert (TP : (0 < tfinal)%R). { destruct n as [|n]; [destruct ls; [congruence | cbn in LL; lia]|]. pose proof (T2 O ltac:(lia)) as H0. cbn [INR] in H0. lra. } rewrite (Rmax_right 0 tfinal) in TOT by lra. rewrite minus_IZR in TOT.
    assert (EP : py_int (tfinal / dt / 50)%R = tot - 1); [|lia]. apply Properties_run6.py_int_is; [apply Rmult_le_pos; [apply Rmult_le_pos; [lra | left; apply Rinv_0_lt_compat; exact PD] | lra]|].
    rewrite minus_IZR. replace (tfinal / dt / 50)%R with (tfinal / (50 * dt))%R by (field; lra). split; [apply Rmult_le_reg_r with (50 * dt)%R | apply Rmult_lt_reg_r with (50 * dt)%R]; try lra; unfold Rdiv; rewrite Rmult_assoc, Rinv_l by lra; lra. }
  set (flds := map (fun j => OnCells (per_run dim cells nodes labels j bc vs U dt X)) (seq 1 n)) in *.
  destruct (saving_runs dim 1 cells nodes _ SV false ord PO (per_turn cells D U cfl) (map hb_ne) (fun d => py_int (tfinal / d / 50)%R + 1) false tfinal tot 0%R hs ls _ hs' G fuel 0%R 1 flds [] (emptied F0) (OnCells X)) as (F & ER & DI).
  - lia.
  - intros x Hx. rewrite (EX x Hx). apply ET. intros ->. destruct Hx.
  - lia.
  - left. lia.
  - exact FO.
  - discriminate.
  - apply empty_directory.
  - exists hs', F. split; [unfold periodic_saving_program; rewrite EST; cbn [bind]; change (zlen []) with 0 in ER; exact ER|].
    cbn [app] in DI. rewrite app_nil_r in DI. replace (map _ (saving_turns tot (Z.of_nat n))) with (picked tot 1 flds); [exact DI|].
    assert (LF : zlen flds = Z.of_nat n) by (unfold flds, zlen; rewrite map_length, seq_length; reflexivity).
    rewrite (picked_filter (OnCells X) tot flds 1), LF. unfold saving_turns. replace (Z.of_nat n + 1) with (1 + Z.of_nat n) by lia. apply map_ext_in. intros k Hk. apply filter_In in Hk as (Hk & _). unfold range2 in Hk. apply in_map_iff in Hk as (i & <- & Hi). apply in_range in Hi.
    unfold flds, nthZ. replace (Z.to_nat (1 + i - 1)) with (Z.to_nat i) by lia. rewrite (nth_indep _ _ (OnCells (per_run dim cells nodes labels 0 bc vs U dt X))) by (rewrite map_length, seq_length; lia).
    rewrite (map_nth (fun j => OnCells (per_run dim cells nodes labels j bc vs U dt X))), seq_nth by lia. repeat f_equal. lia.
Qed.
Print Assumptions C93_periodic.

Lemma run_conserves f32 dim cells nodes labels npart0 epart bc vs U dt X n : periodic_mesh dim cells nodes labels f32 -> valid_split dim 1 cells nodes npart0 epart ->
  (forall c F, only_cell dim cells c F -> is_periodic dim (flabel dim labels F) = true) ->
  rsum (map (fun c => measure_of cells nodes c * per_run dim cells nodes labels n bc vs U dt X c)%R (range (zlen cells))) = rsum (map (fun c => measure_of cells nodes c * X c)%R (range (zlen cells))).
Proof.
  intros PM VS HP.
  assert (OF : open_facets dim cells labels = []).
  { unfold open_facets. assert (H : forall e, In e (boundary_facets cells) -> (partner_label (flabel dim labels (snd e)) =? 0) = false). { intros (c, F) HI. apply (in_bd f32 dim cells nodes labels PM) in HI. cbn [snd]. rewrite (partner_zero f32 dim cells nodes labels PM c F HI), (HP c F HI). reflexivity. }
    revert H. generalize (boundary_facets cells). induction l as [|e l IH]; intros H; [reflexivity|]. cbn [filter]. rewrite (H e (or_introl eq_refl)). apply IH. intros e' He'. apply H. right. exact He'. }
  induction n as [|n IH]; [reflexivity|]. cbn [per_run]. rewrite (C90_balance f32 dim cells nodes labels npart0 epart bc vs U dt _ PM VS), OF, IH. cbn. ring.
Qed.
Lemma some_tot t d : (0 <= t)%R -> (0 < d)%R -> exists tot, 0 < tot /\ (IZR (tot - 1) * d <= t < IZR tot * d)%R.
Proof.
  intros Ht Hd. exists (Rdefinitions.up (t / d)%R). destruct (archimed (t / d)%R) as (A & B). assert (ET : (t / d * d = t)%R) by (field; lra). assert (H0 : (0 <= t / d)%R) by (apply Rmult_le_pos; [exact Ht | left; apply Rinv_0_lt_compat; exact Hd]).
  assert (U1 : (IZR (Rdefinitions.up (t / d)) - 1 <= t / d)%R) by lra. assert (U2 : (t / d < IZR (Rdefinitions.up (t / d)))%R) by lra.
  split; [apply lt_IZR; lra|]. apply (Rmult_le_compat_r d) in U1; [|lra]. apply (Rmult_lt_compat_r d) in U2; [|lra]. rewrite minus_IZR. lra.
Qed.
(** On a mesh all of whose boundary is periodic, with cfl <= 1: every file the program leaves shows a field between the bounds of the initial values with the total of the initial values,
    and the first turn has left a file. *)
Theorem C93_periodic_frames : forall f32 dim cells nodes labels npart0 epart bc vs U cfl tfinal ord lo hi w0,
  periodic_mesh dim cells nodes labels f32 -> valid_split dim 1 cells nodes npart0 epart -> per_bc_valid dim cells labels bc vs -> (0 < cfl <= 1)%R -> (forall m, Permutation (ord m) [0]) ->
  (forall c F, only_cell dim cells c F -> is_periodic dim (flabel dim labels F) = true) -> dirichlet_within lo hi bc vs ->
  zlen w0 = zlen cells -> (forall x, In x w0 -> (lo <= x <= hi)%R) -> (0 < tfinal)%R ->
  exists st n, setup f32 dim 1 cells nodes labels npart0 epart = Ok st /\ forall fuel F0, (n <= fuel)%nat ->
    exists time hs F, periodic_saving_program fuel bc vs U cfl tfinal ord 1 st [w0] F0 = Ok (Some (time, hs, F)) /\ fs_vtu F 0 0 <> None /\
      forall r m, fs_vtu F r m <> None -> exists X, saved dim 1 cells nodes (OnCells X) m F /\ (forall c, iscell cells c -> (lo <= X c <= hi)%R) /\
        rsum (map (fun c => measure_of cells nodes c * X c)%R (range (zlen cells))) = rsum (map (fun c => measure_of cells nodes c * nthZ 0%R w0 c)%R (range (zlen cells))).
Proof.
  intros f32 dim cells nodes labels npart0 epart bc vs U cfl tfinal ord lo hi w0 PM VS BV HC PO HP HD LW HB TP.
  destruct (C93_periodic f32 dim cells nodes labels npart0 epart bc vs U cfl tfinal ord PM VS BV ltac:(lra) PO) as (st & dt & n & E & PD & LS & T1 & T2 & PR). exists st, n. split; [exact E|]. intros fuel F0 Hf.
  destruct (some_tot (Rmax 0 tfinal) (50 * dt)) as (tot & TOT & HT); [apply Rmax_l | lra|]. destruct (PR w0 fuel tot F0 LW Hf TOT HT) as (hs & F & EP & DI). exists (INR n * dt)%R, hs, F. split; [exact EP|].
  set (fields := map _ _) in DI. assert (N1 : (1 <= n)%nat). { destruct n as [|n]; [|lia]. exfalso. cbn [INR] in T1. lra. }
  split.
  - assert (L0 : 0 < zlen fields). { unfold fields. rewrite zlen_map. unfold saving_turns. rewrite (Proofs_run38.range2_cons 1) by lia. cbn [filter Z.eqb Pos.eqb orb]. rewrite zlen_cons. pose proof (zlen_nonneg (filter (fun k => (k =? 1) || (k mod tot =? 0)) (range2 (1 + 1) (Z.of_nat n + 1)))). lia. }
    destruct (proj1 (DI 0) ltac:(lia)) as ((parts & _ & _ & G) & _). destruct (G 0 ltac:(lia)) as (g & EG & _). rewrite EG. discriminate.
  - intros r m Hr. assert (Hm : 0 <= m < zlen fields). { destruct (Z_lt_dec m 0) as [X|X]; [exfalso; apply Hr; apply (proj2 (DI m)); lia|]. destruct (Z_lt_dec m (zlen fields)) as [Y|Y]; [lia|]. exfalso. apply Hr. apply (proj2 (DI m)). lia. }
    destruct (proj1 (DI m) Hm) as (SD & _). cbv zeta in SD. unfold fields in Hm. rewrite zlen_map in Hm. unfold fields in SD. rewrite (nthZ_map _ 0) in SD by exact Hm. set (k := Z.to_nat _) in SD.
    eexists. split; [exact SD|]. split.
    + intros c Hc. apply (run_within_per f32 dim cells nodes labels PM bc vs U) with (cfl := cfl); [intros a Ha; apply (per_closed f32 dim cells nodes labels npart0 epart U PM VS a Ha) | intros a Ha; apply (per_closed f32 dim cells nodes labels npart0 epart U PM VS a Ha) | exact HD | lra | lra | exact (proj1 LS) | | exact Hc].
      intros a Ha. apply HB. apply nthZ_In. unfold iscell in Ha. lia.
    + apply (run_conserves f32 dim cells nodes labels npart0 epart bc vs U dt _ k PM VS HP).
Qed.
Print Assumptions C93_periodic_frames.
