(** * Properties_run9: what the streamer programs leave in the directory results (C94, continued).  Vocabulary: [Spec_run9], [Spec_run8]. *)
From Coq Require Import String Reals Lra Permutation Sorted.
From Verif Require Import Py PyLemmas Model_part Spec_part Model_label Model_conn Spec_conn Model_geom Spec_geom Proofs_geom1 Model_interp Spec_interp Spec_lsq Model_fvm Spec_fvm Proofs_fvm1 Proofs_fvm2 Model_bc Spec_bc Spec_bc3
  Model_domain Spec_domain Model_parallel Spec_parallel Properties_geom Properties_parallel Model_comm Model_run Spec_run Proofs_run1 Proofs_run3 Proofs_run5 Proofs_run6 Properties_run Spec_run2 Model_run2 Proofs_run7 Proofs_run11 Proofs_run13 Proofs_run14 Proofs_run15 Spec_run3 Proofs_run16 Properties_run2
  Model_poisson Spec_poisson Spec_poisson2 Spec_poisson3 Proofs_poisson6 Proofs_poisson7 Proofs_poisson8 Proofs_poisson9 Proofs_poisson10 Properties_poisson Properties_poisson2 Model_run4 Spec_run6 Proofs_run30 Proofs_run31 Proofs_run32 Proofs_run33 Properties_run4 Model_run5 Spec_run7.
From Verif Require Import Model_linsys.
From Verif Require Import Spec_streamer.
From Verif Require Model_streamer.
From Verif Require Import Proofs_run34 Proofs_run35 Proofs_run36 Proofs_run37.
From Verif Require Spec_linsys Proofs_linsys5 Properties_save Properties_run6.
From Verif Require Import Model_save Spec_save Model_run6 Spec_run8 Proofs_run38 Model_run7 Spec_run9 Proofs_run39.
From Verif Require Import Properties_run8.
Open Scope Z_scope.

Lemma plain_int tfinal dt : (0 < tfinal)%R -> (0 < dt)%R -> Int_part (tfinal / dt / 50) = tot_plain tfinal dt.
Proof.
  intros TP DP. symmetry. unfold tot_plain. set (x := (tfinal / dt / 50)%R). assert (PX : (0 < x)%R) by (unfold x; apply Rdiv_lt_0_compat; [apply Rdiv_lt_0_compat; assumption | lra]). destruct (base_Int_part x) as (A & B). apply Properties_run6.py_int_is; lra.
Qed.
Lemma nth_some {A} (l : list A) j : nthZ None (map Some l) j = nth_error l (Z.to_nat j).
Proof. unfold nthZ. generalize (Z.to_nat j). induction l as [|x l IH]; intros [|n]; cbn; try reflexivity. apply IH. Qed.

Section Streamer9.
Context (dim SIZE : Z) (cells : list (list Z)) (nodes : list pt) (labels npart0 epart : list Z) (st : setting).
Hypothesis VM : valid_mesh dim cells nodes labels.
Hypothesis VS : valid_split dim SIZE cells nodes npart0 epart.
Hypothesis RP : represents dim SIZE cells nodes labels epart (se_domains st).
Context (bcp : list (loc * bctype)) (vsp : list (loc * bcval)) (bc : list (loc * bctype)) (vs : list (loc * bcval)) (bis : bool) (order : Z) (cfl tfinal : R) (at_node : bool)
  (sol : solver) (ss : system) (es : list (list entry)) (backend : nat -> list entry -> list (option R) -> list R).
Notation streamer_state := (streamer_state SIZE cells st bcp vsp bc vs sol).
Notation nodal := (bis || at_node).
Definition save_of (n : nat) : R -> res bool := if bis then saves_bis tfinal n else saves_script n.
Hypothesis TURN : forall n P0 X XI s, streamer_state P0 X XI s ->
  exists P E dt Y YI, ((exists P', poisson dim cells nodes labels bcp vsp (charge_of X XI) P') -> poisson dim cells nodes labels bcp vsp (charge_of X XI) P) /\
    velocity_of dim cells nodes labels bcp vsp P E /\ (0 < dt)%R /\ largest_streamer dim cells nodes E cfl dt /\ streamer_step dim cells nodes labels bc vs order E dt X XI Y YI /\
    (forall e, save_of n dt = Err e -> streamer_turn (negb bis) order cfl (save_of n) SIZE st sol ss es (backend n) s = Err e) /\
    (forall b, save_of n dt = Ok b -> exists s', streamer_turn (negb bis) order cfl (save_of n) SIZE st sol ss es (backend n) s = Ok (dt, s') /\ streamer_state P Y YI s' /\
       face_field dim cells SIZE st E (sk_gP s') /\ face_field dim cells SIZE st E (sk_Ef s') /\ face_field dim cells SIZE st (fun c F => drift (E c F)) (sk_vf s') /\
       (b = true -> Proofs_run11.shows dim SIZE cells nodes labels st bc vs Y (sk_ne s') /\ Proofs_run11.node_values dim SIZE cells nodes labels st bc vs Y (sk_ne s'))).
Definition streamer_turn_of (x : nat * streamer_held) : res (R * R * (nat * streamer_held)) :=
  do q <- streamer_turn (negb bis) order cfl (save_of (fst x)) SIZE st sol ss es (backend (fst x)) (snd x); ret (fst q, fst q, (Datatypes.S (fst x), snd q)).
Definition var_of (x : nat * streamer_held) : list variable := if nodal then sk_ne (snd x) else sk_P (snd x).
Definition tot_of : R -> Z := if bis then tot_plain tfinal else tot_more tfinal.
Notation field_of := (streamer_field dim cells nodes labels bc vs nodal).
Notation turns := (streamer_turns dim cells nodes labels bc vs bcp vsp order cfl tfinal).
Lemma written_after m n s : streamer_state (tm_P m) (tm_ne m) (tm_ni m) s ->
  Proofs_run11.shows dim SIZE cells nodes labels st bc vs (tm_ne m) (sk_ne s) /\ Proofs_run11.node_values dim SIZE cells nodes labels st bc vs (tm_ne m) (sk_ne s) ->
  exists fld, field_of m fld /\ offers SIZE st nodal (var_of (n, s)) fld.
Proof.
  intros (HN & _ & HP & _) (SH & NV). unfold streamer_field, var_of. cbn [snd]. destruct nodal.
  - exact (shown_offers dim SIZE cells nodes labels npart0 epart st VM VS RP bc vs true (tm_ne m) (sk_ne s) HN SH NV).
  - exists (OnCells (tm_P m)). split; [reflexivity|]. apply offers_cells; [reflexivity|]. exact (holds_holding dim SIZE cells nodes npart0 epart st VS bcp vsp _ _ HP).
Qed.
Lemma saved_turn n dt : (0 < tfinal)%R -> (0 < dt)%R ->
  (exists b, save_of n dt = Ok b /\ (tot_of dt <> 0 \/ Z.of_nat n + 1 = 1) /\ (kept (tot_of dt) (Z.of_nat n + 1) = true -> b = true) /\ (bis = false -> b = true)) \/
  save_of n dt = Err ZeroDivision /\ bis = true /\ n <> O /\ (tfinal < 50 * dt)%R.
Proof.
  intros TP PD. unfold save_of, tot_of. destruct (plain_fits tfinal dt TP PD) as (T0 & F1 & F2). destruct bis.
  - destruct n as [|n]; [left; exists true; repeat split; auto|]. unfold saves_bis. rewrite plain_int by assumption. cbv zeta. destruct (Z.eqb_spec (tot_plain tfinal dt) 0) as [E0|E0].
    + right. repeat split; auto. rewrite E0 in F2. lra.
    + left. eexists. split; [reflexivity|]. split; [left; exact E0|]. split; [|discriminate]. unfold kept. destruct (Z.eqb_spec (Z.of_nat (Datatypes.S n) + 1) 1); [lia|]. cbn [orb]. auto.
  - left. exists true. split; [reflexivity|]. split; [left; rewrite more_plain; lia|]. auto.
Qed.
Hypothesis TP : (0 < tfinal)%R.
Lemma streamer_makes : forall fuel n t P0 X XI s, streamer_state P0 X XI s ->
  exists l ls flds t' s', makes streamer_turn_of tfinal t (n, s) ls t' s' /\ length ls = length l /\ length flds = length l /\ (length l <= fuel)%nat /\ turns t X XI l t' /\
    ((tfinal <= t')%R \/ (t' < tfinal)%R /\ length l = fuel \/
     (t' < tfinal)%R /\ (length l < fuel)%nat /\ streamer_turn_of s' = Err ZeroDivision /\ bis = true /\ (n + length l)%nat <> O /\ exists m t2, turns t X XI (l ++ [m]) t2 /\ (tfinal < 50 * tm_dt m)%R) /\
    holds SIZE st bc vs (last (map tm_ne l) X) (sk_ne (snd s')) /\ values_of 0%R SIZE (se_domains st) (last (map tm_ni l) XI) (sk_ni (snd s')) /\
    (bis = false -> forall m0, l <> [] -> exists fld, field_of (last l m0) fld /\ offers SIZE st nodal (var_of s') fld) /\
    (forall j m0, (j < length l)%nat -> kept (tot_of (tm_dt (nth j l m0))) (Z.of_nat (n + j) + 1) = true -> field_of (nth j l m0) (nth j flds (OnCells (fun _ => 0%R)))) /\
    map fst ls = map tm_dt l /\ (forall m, In m l -> (0 < tm_dt m)%R) /\ ready SIZE st nodal var_of tot_of (Z.of_nat n + 1) ls flds.
Proof.
  induction fuel as [|fuel IH]; intros n t P0 X XI s DS; destruct (Rlt_dec t tfinal) as [HT|HT].
  1, 2, 4: exists [], [], [], t, (n, s); split; [constructor|]; split; [reflexivity|]; split; [reflexivity|]; split; [cbn; lia|]; split; [constructor|]; split; [try (right; left; split; [exact HT | reflexivity]); left; lra|]; split; [exact (proj1 DS)|]; split; [exact (proj1 (proj2 DS))|];
    split; [congruence|]; split; [cbn; lia|]; split; [reflexivity|]; split; [intros m [] | constructor].
  destruct (TURN n P0 X XI s DS) as (P & E & dt & Y & YI & HPo & HV & PD & HL & HS & TE & TO). set (m := {| tm_dt := dt; tm_P := P; tm_ne := Y; tm_ni := YI |}).
  destruct (saved_turn n dt TP PD) as [(b & EB & TZ & KB & SB)|(EE & B1 & N0 & FT)].
  - destruct (TO b EB) as (s1 & ET & DS1 & _ & _ & _ & SHW).
    destruct (IH (Datatypes.S n) (t + dt)%R P Y YI s1 DS1) as (l & ls & flds & t' & s' & G & LL & LX & LF & DT & EN & HO & HI & FI & FW & EM & PP & RD).
    assert (FLD : b = true -> exists fld, field_of m fld /\ offers SIZE st nodal (var_of (Datatypes.S n, s1)) fld) by (intros Hb; apply written_after; [exact DS1 | exact (SHW Hb)]).
    assert (FX : exists fld, (b = true -> field_of m fld /\ offers SIZE st nodal (var_of (Datatypes.S n, s1)) fld)).
    { destruct b; [destruct (FLD eq_refl) as (fld & Hf); exists fld; intros _; exact Hf | exists (OnCells (fun _ => 0%R)); discriminate]. }
    destruct FX as (fld & HF).
    assert (CONS : forall l2 t2, turns (t + dt)%R Y YI l2 t2 -> turns t X XI (m :: l2) t2) by (intros l2 t2 D2; apply st_turn with (E := E); assumption).
    exists (m :: l), ((dt, (Datatypes.S n, s1)) :: ls), (fld :: flds), t', s'. split; [|split; [cbn [length]; lia | split; [cbn [length]; lia | split; [cbn [length]; lia | split; [exact (CONS l t' DT)|]]]]].
    + apply (mk_turn streamer_turn_of tfinal t (n, s) dt dt (Datatypes.S n, s1)); [exact HT | unfold streamer_turn_of; cbn [fst snd]; rewrite ET; reflexivity | exact G].
    + split; [|split; [cbn [map]; rewrite last_cons; exact HO | split; [cbn [map]; rewrite last_cons; exact HI | split; [|split; [|split; [cbn [map fst]; rewrite EM; reflexivity | split]]]]]].
      * destruct EN as [EN|[(EN & LE)|(EN & LE & EE & B1 & N0 & m2 & t2 & D2 & F2)]]; [left; exact EN | right; left; split; [exact EN | cbn [length]; lia] | right; right].
        split; [exact EN|]. split; [cbn [length]; lia|]. split; [exact EE|]. split; [exact B1|]. split; [cbn [length]; lia|]. exists m2, t2. split; [exact (CONS _ _ D2) | exact F2].
      * intros B0 m0 _. rewrite last_cons. destruct l as [|m1 l]; [|exact (FI B0 m ltac:(discriminate))]. destruct ls; [|discriminate LL]. inversion G; subst. exists fld. exact (HF (SB B0)).
      * intros [|j] m0 Hj Hk; cbn [nth] in *; [apply HF, KB; rewrite Nat.add_0_r in Hk; exact Hk|]. apply FW; [cbn [length] in Hj; lia|]. replace (Datatypes.S n + j)%nat with (n + Datatypes.S j)%nat by lia. exact Hk.
      * intros m2 [<-|Hp]; [exact PD | exact (PP m2 Hp)].
      * constructor; [exact TZ | intros Hk; exact (proj2 (HF (KB Hk)))|]. replace (Z.of_nat n + 1 + 1) with (Z.of_nat (Datatypes.S n) + 1) by lia. exact RD.
  - exists [], [], [], t, (n, s). split; [constructor|]. split; [reflexivity|]. split; [reflexivity|]. split; [cbn; lia|]. split; [constructor|]. split; [|split; [exact (proj1 DS)|]; split; [exact (proj1 (proj2 DS))|]; split; [congruence|]; split; [cbn; lia|]; split; [reflexivity|]; split; [intros m2 [] | constructor]].
    right. right. split; [exact HT|]. split; [cbn; lia|]. split; [unfold streamer_turn_of; cbn [fst snd]; rewrite (TE _ EE); reflexivity|]. split; [exact B1|]. split; [cbn [length]; lia|]. exists m, (t + dt)%R. split; [apply st_turn with (E := E); try assumption; constructor | exact FT].
Qed.
End Streamer9.

(** C94.  The turns are those of C83. *)
Theorem C94_streamer_turns : forall dim cells nodes labels bc vs bcp vsp order cfl tfinal X XI l t, streamer_turns dim cells nodes labels bc vs bcp vsp order cfl tfinal 0 X XI l t ->
  streamer_flow dim cells nodes labels bc vs bcp vsp order cfl tfinal X XI (length l) t (last (map tm_ne l) X) (last (map tm_ni l) XI).
Proof.
  intros dim cells nodes labels bc vs bcp vsp order cfl tfinal X XI l t H.
  assert (GEN : forall n t0 X0 XI0, streamer_flow dim cells nodes labels bc vs bcp vsp order cfl tfinal X XI n t0 X0 XI0 -> streamer_turns dim cells nodes labels bc vs bcp vsp order cfl tfinal t0 X0 XI0 l t ->
    streamer_flow dim cells nodes labels bc vs bcp vsp order cfl tfinal X XI (n + length l) t (last (map tm_ne l) X0) (last (map tm_ni l) XI0)).
  { clear H. intros n t0 X0 XI0 FL H. revert n FL. induction H as [t X0 XI0 | t X0 XI0 m E l t' HT HP HV PD HL HS H IH]; intros n FL; [cbn [length map last]; rewrite Nat.add_0_r; exact FL|]. cbn [length map]. rewrite !last_cons. replace (n + Datatypes.S (length l))%nat with (Datatypes.S n + length l)%nat by lia.
    apply IH. exact (streamer_next _ _ _ _ _ _ _ _ _ _ _ _ _ _ _ _ _ _ _ _ _ _ FL HT HP HV HL HS). }
  apply (GEN O 0%R X XI); [|exact H]. apply streamer_begin. intros c _. split; reflexivity.
Qed.
(** C94.  The streamer programs with their saves, on any number of ranks.  The script never fails: at its end the directory holds, under the numbers 0, 1, 2, ..., what belongs to the first turn, the
    turns k for which k is a multiple of tot (tot - 1: the number of times that 50 time steps of turn k fit into tfinal), and at last what belongs to the last turn: the electrons at the nodes, or the
    potential on the cells, which is the one from which the turn was made; and nothing else.  The program with the class ([bis], second order) saves the electrons at the nodes, with tot the number
    of times that 50 time steps fit into tfinal, and not once more at the end; it fails, with a division by zero, only when in a turn after the first 50 time steps are more than tfinal. *)
Theorem C94_streamer : forall f32 dim SIZE cells nodes labels npart0 epart condn condP at_node ord,
  let bc := conditions dim condn in let vs := given_values condn in let bcp := conditions dim condP in let vsp := given_values condP in
  regular dim SIZE cells nodes labels npart0 epart bcp vsp -> bc_valid dim bc vs -> corners_whole dim cells labels bc epart -> (forall m, Permutation (ord m) (range SIZE)) ->
  exists st, setup f32 dim SIZE cells nodes labels npart0 epart = Ok st /\
    forall sol n0 i0 p00 X XI P0 bis order cfl tfinal backend fuel F0, sol = SMumps \/ sol = SPetsc ->
      values_of 0%R SIZE (se_domains st) X n0 -> values_of 0%R SIZE (se_domains st) XI i0 -> values_of 0%R SIZE (se_domains st) P0 p00 ->
      (0 < cfl)%R -> (0 < tfinal)%R -> bis = false \/ order = 2 -> (forall k e b, zlen (backend k e b) = zlen cells) -> (forall k, solving (zlen cells) (backend k)) ->
    let turns := streamer_turns dim cells nodes labels bc vs bcp vsp order cfl tfinal 0 X XI in
    match streamer_saving_program bis fuel order cfl tfinal condn condP at_node ord SIZE st sol backend n0 i0 p00 F0 with
    | Ok (Some (t, s, F)) => exists l tots flds, turns l t /\ (length l <= fuel)%nat /\ (tfinal <= t)%R /\ holding SIZE st (last (map tm_ne l) X) (sk_ne s) /\ values_of 0%R SIZE (se_domains st) (last (map tm_ni l) XI) (sk_ni s) /\
        Forall2 (fun m T => fits tfinal (tm_dt m) (if bis then T else T - 1)) l tots /\
        Forall2 (fun k fld => exists m, nth_error l (Z.to_nat (k - 1)) = Some m /\ streamer_field dim cells nodes labels bc vs (bis || at_node) m fld) (saving_turns_by tots ++ if bis then [] else [zlen l]) flds /\
        directory dim SIZE cells nodes flds F
    | Ok None => exists l t, turns l t /\ length l = fuel /\ (t < tfinal)%R
    | Err e => bis = true /\ e = ZeroDivision /\ exists l m t, turns (l ++ [m]) t /\ l <> [] /\ (length l < fuel)%nat /\ (tfinal < 50 * tm_dt m)%R
    end.
Proof.
  intros f32 dim SIZE cells nodes labels npart0 epart condn condP at_node ord bc vs bcp vsp RG BVn CWn PO. regular_setup f32 RG st E RP CS HX. exists st. split; [exact E|].
  intros sol n0 i0 p00 X XI P0 bis order cfl tfinal backend fuel F0 HS HN HI HP Hcfl TP FO LB SVB turns. pose proof (setup_tc f32 _ _ _ _ _ _ _ _ VM VS E) as TC.
  destruct (Properties_save.C91_save f32 dim SIZE cells nodes labels npart0 epart VM VS) as (st' & E' & SV). rewrite E in E'. injection E' as <-.
  destruct (streamer_start_ok dim SIZE cells nodes labels npart0 epart st VM PL VS RP SC CS SP condn condP BV BVn sol n0 i0 p00 X XI P0 HS HN HI HP) as (s0 & ss & es & E1 & DS & HB & SY).
  assert (FO' : negb bis = true \/ order = 2) by (destruct FO as [-> | FO]; auto).
  pose proof (fun n P1 Y YI s H => streamer_turn_ok dim SIZE cells nodes labels npart0 epart st VM PL VS RP SC CS HX SP TC bcp vsp BV CW bc vs BVn CWn (negb bis) order cfl FO' Hcfl sol ss es (save_of bis tfinal n) (backend n) P1 Y YI s HS H HB SY (LB n (concat es)) (SVB n)) as TURN.
  destruct (streamer_makes dim SIZE cells nodes labels npart0 epart st VM VS RP bcp vsp bc vs bis order cfl tfinal at_node sol ss es backend TURN TP fuel 0%nat 0%R P0 X XI s0 DS)
    as (l & ls & flds & t & s & G & LL & LX & LF & DT & EN & HO & HOI & FI & FW & EM & PP & RD).
  set (m0 := {| tm_dt := 0; tm_P := fun _ => 0%R; tm_ne := X; tm_ni := XI |}).
  assert (NE : (tfinal <= t)%R -> l <> []) by (intros HT ->; inversion DT; subst; lra).
  assert (LFD : exists lf, negb bis = true -> (tfinal <= t)%R -> streamer_field dim cells nodes labels bc vs (bis || at_node) (last l m0) lf /\ offers SIZE st (bis || at_node) (var_of bis at_node s) lf).
  { destruct bis; [exists (OnCells X); discriminate|]. destruct (Rle_dec tfinal t) as [HT|HT]; [|exists (OnCells X); intros _ HT'; contradiction]. destruct (FI eq_refl m0 (NE HT)) as (lf & Q). exists lf. intros _ _. exact Q. }
  destruct LFD as (lf & LFD).
  destruct (saving_makes dim SIZE cells nodes st SV (bis || at_node) ord PO (streamer_turn_of SIZE st bis order cfl tfinal sol ss es backend) (var_of bis at_node) (tot_of bis tfinal) (negb bis) tfinal 0%R (0%nat, s0) ls t s G fuel 0%R 1 flds [] (emptied F0) lf
    ltac:(lia) ltac:(lia) RD (fun A B => proj2 (LFD A B)) (empty_directory dim SIZE cells nodes F0)) as (I1 & I2 & I3). change (zlen []) with 0 in I1, I2, I3.
  unfold streamer_saving_program. rewrite E1. cbn [bind fst snd]. cbv zeta. unfold streamer_turn_of, save_of, var_of, tot_of in I1, I2, I3. destruct EN as [EN|[(EN & LE)|(EN & LE & EE & B1 & N0 & m2 & t2 & D2 & F2)]].
  - destruct (I1 EN) as (F & EL & DI). rewrite EL. cbn [bind option_map fst snd].
    set (tots := map (fun m => tot_of bis tfinal (tm_dt m)) l). exists l, tots, (picked_by tots 1 flds ++ if negb bis then [lf] else []).
    assert (ET : map (fun x : R * (nat * streamer_held) => (if bis then tot_plain tfinal else tot_more tfinal) (fst x)) ls = tots).
    { unfold tots, tot_of. rewrite <- (map_map fst (if bis then tot_plain tfinal else tot_more tfinal)), EM, map_map. reflexivity. }
    split; [exact DT|]. split; [exact LF|]. split; [exact EN|]. split; [exact (holds_holding dim SIZE cells nodes npart0 epart st VS bc vs _ _ HO)|]. split; [exact HOI|]. split; [|split].
    + unfold tots. clear -PP TP. induction l as [|m l IH]; cbn [map]; constructor; [|apply IH; intros q Hq; apply PP; right; exact Hq]. unfold tot_of. pose proof (proj2 (plain_fits tfinal (tm_dt m) TP (PP m (or_introl eq_refl)))) as FT.
      destruct bis; [exact FT|]. rewrite more_plain. replace (tot_plain tfinal (tm_dt m) + 1 - 1) with (tot_plain tfinal (tm_dt m)) by lia. exact FT.
    + apply Forall2_app.
      * rewrite (picked_by_filter (OnCells (fun _ => 0%R))) by (unfold tots; rewrite map_length; congruence). assert (LZ : zlen flds = zlen tots) by (unfold zlen, tots; rewrite map_length; congruence). rewrite LZ. unfold saving_turns_by. replace (1 + zlen tots) with (zlen tots + 1) by lia. unfold kept.
        assert (GEN : forall ks, (forall k, In k ks -> 1 <= k <= zlen l /\ (k =? 1) || (k mod nthZ 1 tots (k - 1) =? 0) = true) ->
          Forall2 (fun k fld => exists m, nth_error l (Z.to_nat (k - 1)) = Some m /\ streamer_field dim cells nodes labels bc vs (bis || at_node) m fld) ks (map (fun k => nthZ (OnCells (fun _ => 0%R)) flds (k - 1)) ks)).
        { induction ks as [|k ks IH]; intros H; cbn [map]; constructor; [|apply IH; intros; apply H; right; assumption]. destruct (H k (or_introl eq_refl)) as (Hk & KP). assert (HJ : (Z.to_nat (k - 1) < length l)%nat) by (unfold zlen in Hk; lia).
          exists (nth (Z.to_nat (k - 1)) l m0). split; [apply nth_error_nth'; exact HJ|]. unfold nthZ. apply FW; [exact HJ|]. unfold kept. replace (Z.of_nat (0 + Z.to_nat (k - 1)) + 1) with k by lia.
          assert (ETT : nthZ 1 tots (k - 1) = tot_of bis tfinal (tm_dt (nth (Z.to_nat (k - 1)) l m0))). { unfold nthZ, tots. rewrite (nth_indep _ 1 (tot_of bis tfinal (tm_dt m0))) by (rewrite map_length; exact HJ). rewrite (map_nth (fun m => tot_of bis tfinal (tm_dt m))). reflexivity. }
          rewrite <- ETT. exact KP. }
        apply GEN. intros k Hk. apply filter_In in Hk as (Hk & KP). split; [|exact KP]. unfold range2 in Hk. apply in_map_iff in Hk as (i & <- & Hi). apply in_range in Hi. assert (zlen tots = zlen l) by (unfold zlen, tots; rewrite map_length; reflexivity). lia.
      * destruct bis; cbn [negb]; constructor; [|constructor]. exists (last l m0). split; [|exact (proj1 (LFD eq_refl EN))]. pose proof (NE EN) as NL. rewrite (Properties_run6.last_nth m0 l NL). unfold nthZ. apply nth_error_nth'. assert (0 < length l)%nat by (destruct l; [congruence | cbn; lia]). unfold zlen. lia.
    + cbn [app] in DI. rewrite ET in DI. exact DI.
  - rewrite (I2 EN ltac:(lia)). cbn [bind option_map]. exists l, t. auto.
  - rewrite (I3 _ EN ltac:(lia) EE). cbn [bind]. split; [exact B1|]. split; [reflexivity|]. exists l, m2, t2. split; [exact D2|]. split; [intros ->; cbn in N0; lia|]. split; [exact LE | exact F2].
Qed.
Print Assumptions C94_streamer.
