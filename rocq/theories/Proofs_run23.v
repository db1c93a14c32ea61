(** * Proofs_run23: update_solution and a turn of the loop of the shallow-water program. *)
From Coq Require Import String Reals Lra Psatz Permutation Sorted.
From Verif Require Import Py PyLemmas Model_part Spec_part Model_label Model_conn Spec_conn Proofs_conn1 Proofs_conn2 Model_geom Spec_geom Proofs_geom1 Proofs_geom2 Proofs_geom3
  Model_halo Spec_halo Model_interp Spec_interp Spec_lsq Proofs_lsq Model_fvm Spec_fvm Proofs_fvm1 Proofs_fvm2 Model_bc Spec_bc Spec_bc3 Proofs_label Proofs_bc Proofs_bc2 Proofs_bc3 Model_domain Spec_domain
  Model_comm Model_parallel Spec_parallel Proofs_parallel1 Model_run Spec_run Proofs_run1 Proofs_run2 Proofs_run3 Proofs_run4 Proofs_run5 Proofs_run6 Spec_run2 Model_run2 Proofs_run7 Proofs_run8 Proofs_run9 Proofs_run10 Proofs_run11 Proofs_run12 Proofs_run13 Proofs_run14.
From Verif Require Import Model_sw Proofs_sw5 Proofs_sw6 Proofs_sw7 Model_run3 Spec_run4 Proofs_run17 Proofs_run18 Proofs_run19 Proofs_run20 Proofs_run21 Proofs_run22.
From Verif Require Spec_sw Properties_sw Proofs_sw8.
Open Scope Z_scope.


Section Ranks23.
Context (SIZE : Z) (cells : list (list Z)) (nodes : list pt) (labels npart0 epart : list Z) (st : setting).
Hypothesis VM : valid_mesh 2 cells nodes labels.
Hypothesis PL : planar nodes.
Hypothesis VS : valid_split 2 SIZE cells nodes npart0 epart.
Notation Ds := (se_domains st).
Notation Dr := (domain_of (se_domains st)).
Hypothesis RP : represents 2 SIZE cells nodes labels epart Ds.
Hypothesis SC : star_connected 2 cells.
Hypothesis CS : forall r, 0 <= r < SIZE -> consistent 2 (Dr r).
Hypothesis HX : 1 < SIZE -> forall (V : Type) (d : V) (X : Z -> V) (w : list (list V)), values_of d SIZE Ds X w -> exists halo, update_halo_value SIZE (se_comms st) w = Ok halo /\ halo_values_of d SIZE Ds X halo.
Hypothesis SP : spanned 2 cells nodes.
Notation PAr := (rp_part _ _ _ _ _ _ _ RP).
Notation size1 := (size11 2 SIZE cells nodes npart0 epart VS).
Notation dom r Hr := (dom11 2 SIZE cells nodes labels epart st RP r Hr).
Notation sizes := (Proofs_run5.sizes 2 SIZE cells nodes labels epart st RP).
Context (B : flow).
Hypothesis FU : flow_bc (fl_ubc B) (fl_uvs B).
Hypothesis FV : flow_bc (fl_vbc B) (fl_vvs B).
Hypothesis RU : readable SIZE st (fl_ubc B).
Hypothesis RV : readable SIZE st (fl_vbc B).
Context (order : Z) (co : swcoef) (cfl : R).
Hypothesis HCFL : (0 < cfl)%R.
Hypothesis HD : (0 <= co_Dx co + co_Dy co)%R.
Notation E := {| fe_Dx := co_Dx co; fe_Dy := co_Dy co; fe_Mann := co_Mann co; fe_fc := co_fc co |}.
Notation five := (five SIZE st B).
Notation five_shown := (five_shown SIZE cells nodes labels st B).
Notation fshows := (fshows SIZE cells nodes labels st).
Notation slopes_of := (slopes_of SIZE st).
Notation facets_of c := (facets (cell cells c)).
Notation gcell_cell := (gcell_cell SIZE cells nodes labels epart st RP).
Notation cells_of_ranks := (cells_of_ranks SIZE cells nodes labels npart0 epart st VS RP).
Notation PL2 := (fun _ : 2 = 2 => PL).

Definition zero_slopes (s : sw_held) : Prop := slopes_of (fun _ => vzero) (fun _ => 0%R) (sh_gh s) /\ slopes_of (fun _ => vzero) (fun _ => 0%R) (sh_gc s).
Lemma gradients_ok W s : five_shown W s -> (order <> 2 -> zero_slopes s) ->
  exists s' Sl P0 Tl Ps, sw_gradients order SIZE st s = Ok s' /\ five_shown W s' /\ slopes_of Sl P0 (sh_gh s') /\ slopes_of Tl Ps (sh_gc s') /\ slopes cells nodes labels order W Sl Tl Ps /\
    (forall c, iscell cells c -> gradient 2 (Sl c) /\ gradient 2 (Tl c)) /\ (order <> 2 -> forall c, iscell cells c -> Sl c = vzero /\ Tl c = vzero) /\ sh_face s' = sh_face s /\ (order <> 2 -> zero_slopes s').
Proof.
  intros F ZS. unfold sw_gradients. destruct (Z.eqb_spec order 2) as [EO|NO].
  - destruct F as [A1 A2 A3 A4 A5].
    destruct (cell_gradient_ok 2 SIZE cells nodes labels npart0 epart st VM PL2 VS RP SC CS HX free [] free_valid (free_corners cells labels epart) SP _ _ (proj1 A1)) as (h & gh & Sl & P0 & E1 & H1 & Q1 & G1).
    destruct (cell_gradient_ok 2 SIZE cells nodes labels npart0 epart st VM PL2 VS RP SC CS HX free [] free_valid (free_corners cells labels epart) SP _ _ (proj1 A4)) as (hc & gc & Tl & Ps & E4 & H4 & Q4 & G4).
    rewrite E1. cbn [bind fst snd]. rewrite E4. cbn [bind fst snd]. eexists. exists Sl, P0, Tl, Ps. split; [reflexivity|]. cbn [sh_h sh_hu sh_hv sh_hc sh_Z sh_gh sh_gc sh_face].
    split; [constructor; cbn [sh_h sh_hu sh_hv sh_hc sh_Z]; [exact (shows_flow _ _ _ _ _ _ _ H1) | exact A2 | exact A3 | exact (shows_flow _ _ _ _ _ _ _ H4) | exact A5]|].
    split; [exact G1|]. split; [exact G4|]. split; [intros _ c Hc; destruct (Q1 c Hc) as (X1 & _); destruct (Q4 c Hc) as (X4 & X5); auto|]. split; [|split; [|split; [reflexivity|]]]; try (intros NO; congruence).
    intros c Hc. split; [exact (slope_gradient _ _ _ _ _ (proj1 (Q1 c Hc))) | exact (slope_gradient _ _ _ _ _ (proj1 (Q4 c Hc)))].
  - destruct (ZS NO) as (Z1 & Z2). exists s, (fun _ => vzero), (fun _ => 0%R), (fun _ => vzero), (fun _ => 0%R). split; [reflexivity|]. split; [exact F|]. split; [exact Z1|]. split; [exact Z2|]. split; [intros X; congruence|].
    split; [intros c _; split; intros _; reflexivity|]. split; [auto|]. split; [reflexivity|]. intros _. split; assumption.
Qed.
Lemma face_ok W s : five_shown W s -> faces_sized SIZE st (sh_face s) -> exists s' N G, sw_face_gradient SIZE st s = Ok s' /\ five_shown W s' /\ sh_gh s' = sh_gh s /\ sh_gc s' = sh_gc s /\
  tracer_slopes cells nodes labels W N G /\ face_slopes_of SIZE st G (sh_face s').
Proof.
  intros F FS. unfold sw_face_gradient. destruct F as [A1 A2 A3 A4 A5].
  destruct (face_gradient_all 2 SIZE cells nodes labels npart0 epart st VM PL2 VS RP SC CS HX free [] free_valid (free_corners cells labels epart) SP _ _ _ (proj1 A4) FS) as (hc & gs & N & G & E4 & H4 & Q1 & Q2 & Q3).
  rewrite E4. cbn [bind fst snd]. eexists. exists N, G. split; [reflexivity|]. cbn [sh_h sh_hu sh_hv sh_hc sh_Z sh_gh sh_gc sh_face]. split; [constructor; cbn [sh_h sh_hu sh_hv sh_hc sh_Z]; [exact A1 | exact A2 | exact A3 | exact (shows_flow _ _ _ _ _ _ _ H4) | exact A5]|].
  split; [reflexivity|]. split; [reflexivity|]. split; [split; [exact Q1 | exact Q2] | exact Q3].
Qed.
Notation phi W Sl Tl Ps c F := (flux cells nodes labels B order W Sl Tl Ps c F).
Definition residual_of (W : Z -> q5) (Sl Tl : Z -> pt) (Ps : Z -> R) (r : Z) (z : list (option q5)) : Prop := zlen z = zlen (dm_center (Dr r)) /\ forall c, iscell_of (Dr r) c -> let c' := gcell (Dr r) c in
    (forall Phi, (forall F, In F (facets_of c') -> phi W Sl Tl Ps c' F = Some (Phi c' F)) ->
       nthZ None z c = Some {| q_h := gain cells Phi q_h c'; q_hu := gain cells Phi q_hu c'; q_hv := gain cells Phi q_hv c'; q_hc := gain cells Phi q_hc c'; q_Z := gain cells Phi q_Z c' |}) /\
    (nthZ None z c <> None -> forall F, In F (facets_of c') -> phi W Sl Tl Ps c' F <> None).
Lemma convective_ok W s Sl P0 Tl Ps : five_shown W s -> slopes_of Sl P0 (sh_gh s) -> slopes_of Tl Ps (sh_gc s) -> (forall c, iscell cells c -> gradient 2 (Sl c) /\ gradient 2 (Tl c)) ->
  (order <> 2 -> forall c, iscell cells c -> Sl c = vzero /\ Tl c = vzero) ->
  exists rez, mapM (convective_rank_SW order st s) (range SIZE) = Ok rez /\ zlen rez = SIZE /\ forall r, 0 <= r < SIZE -> exists z, get rez r = Ok z /\ residual_of W Sl Tl Ps r z.
Proof.
  intros F G1 G2 HG H1. pose proof size1 as S1. destruct (mapM_ranks (convective_rank_SW order st s) (residual_of W Sl Tl Ps) SIZE ltac:(lia)) as (rez & ER & LR & HR).
  - intros r Hr. unfold convective_rank_SW. rewrite (dom r Hr). cbn [bind]. destruct (held_data_ok SIZE cells nodes labels epart st VM RP CS B W s Sl P0 Tl Ps r Hr F G1 G2) as (A & EA & WA & HC & HH & HGh). rewrite EA. cbn [bind].
    destruct (residual_rank cells nodes labels epart r (Dr r) VM (PAr r Hr) (CS r Hr) B order W Sl Tl Ps A WA HC HH HGh HG H1) as (z & EZ & LZ & HZ). exists z. split; [exact EZ|]. split; [exact LZ | exact HZ].
  - exists rez. split; [exact ER|]. split; [exact LR|]. intros r Hr. destruct (HR r Hr) as (z & Ez & _ & Q). exists z. auto.
Qed.

(** *** The state between the turns *)
Definition state (W : Z -> q5) (s : sw_held) : Prop := five W s /\ (order <> 2 -> zero_slopes s) /\ faces_sized SIZE st (sh_face s).
Definition fresh (W : Z -> q5) (s : sw_held) : Prop := fshows free [] (fun c => q_h (W c)) (sh_h s) /\ fshows free [] (fun c => q_hc (W c)) (sh_hc s) /\ fshows free [] (fun c => q_Z (W c)) (sh_Z s).
Notation W1 dt W := (fun c : Z => slowed E dt (W c)).
Lemma update_core dt W s : forallb (fun t => has_term t (co_terms co)) ["convective"; "dissipation"; "source"; "coriolis"]%string = true ->
  state W s -> fresh W s -> (forall c, iscell cells c -> (0 < q_h (W c))%R /\ friction_factor E dt (W c) <> 0%R) ->
  exists Sl Tl Ps N G, slopes cells nodes labels order (W1 dt W) Sl Tl Ps /\ tracer_slopes cells nodes labels (W1 dt W) N G /\
    (forall Phi H, (forall c F, iscell cells c -> In F (facets_of c) -> phi (W1 dt W) Sl Tl Ps c F = Some (Phi c F)) -> (forall c, iscell cells c -> part_depths cells nodes labels B (W1 dt W) c (H c)) ->
       exists s', sw_update_solution order co dt SIZE st s = Ok s' /\ state (stepped cells nodes labels B E dt (W1 dt W) Phi G H) s') /\
    (forall s', sw_update_solution order co dt SIZE st s = Ok s' -> forall c F, iscell cells c -> In F (facets_of c) -> phi (W1 dt W) Sl Tl Ps c F <> None).
Proof.
  intros TE (F & ZS & FS) (FH & FC & FZ) WET. unfold sw_update_solution. rewrite TE. cbn [negb].
  destruct (friction_ranks SIZE cells nodes labels npart0 epart st VS RP CS HX B FU FV RU RV co dt W s F WET) as (s2 & E2 & F2 & HU & HV & K1 & K2 & K3 & K4 & K5 & K6). rewrite E2. cbn [bind].
  assert (FS2 : five_shown (W1 dt W) s2) by (constructor; [rewrite K1; exact FH | exact HU | exact HV | rewrite K2; exact FC | rewrite K3; exact FZ]).
  destruct (gradients_ok (W1 dt W) s2 FS2) as (s3 & Sl & P0 & Tl & Ps & E3 & F3 & G1 & G2 & SL & GR & H1 & KF & ZS3); [intros NO; unfold zero_slopes; rewrite K4, K5; exact (ZS NO)|]. rewrite E3. cbn [bind].
  destruct (convective_ok (W1 dt W) s3 Sl P0 Tl Ps F3 G1 G2 GR H1) as (rez & ER & LR & HR). rewrite ER. cbn [bind].
  destruct (face_ok (W1 dt W) s3 F3) as (s4 & N & G & E4 & F4 & K7 & K8 & TR & FO); [rewrite KF, K6; exact FS|]. rewrite E4. cbn [bind].
  assert (W1ET : forall c, iscell cells c -> (0 < q_h (W1 dt W c))%R) by (intros c Hc; exact (proj1 (WET c Hc))).
  exists Sl, Tl, Ps, N, G. split; [exact SL|]. split; [exact TR|].
  assert (RK : forall r, 0 <= r < SIZE -> exists A g z, new_cells_SW co dt st s4 rez r = step_rank (Dr r) A co dt g z /\
     ((forall Phi H, (forall c F, iscell_of (Dr r) c -> In F (facets_of (gcell (Dr r) c)) -> phi (W1 dt W) Sl Tl Ps (gcell (Dr r) c) F = Some (Phi (gcell (Dr r) c) F)) -> (forall c, iscell_of (Dr r) c -> part_depths cells nodes labels B (W1 dt W) (gcell (Dr r) c) (H (gcell (Dr r) c))) ->
     exists new, step_rank (Dr r) A co dt g z = Ok new /\ zlen new = zlen (dm_center (Dr r)) /\ forall c, iscell_of (Dr r) c -> nthZ q5_zero new c = stepped cells nodes labels B E dt (W1 dt W) Phi G H (gcell (Dr r) c)) /\
     (forall new, step_rank (Dr r) A co dt g z = Ok new -> forall c F, iscell_of (Dr r) c -> In F (facets_of (gcell (Dr r) c)) -> phi (W1 dt W) Sl Tl Ps (gcell (Dr r) c) F <> None))).
  { intros r Hr. destruct (HR r Hr) as (z & Ez & LZ & HZ). destruct (held_data_ok SIZE cells nodes labels epart st VM RP CS B (W1 dt W) s4 Sl P0 Tl Ps r Hr F4) as (A & EA & WA & HC & HH & HGh); [rewrite K7; exact G1 | rewrite K8; exact G2|].
    destruct FO as (_ & FO). destruct (FO r Hr) as (g & Eg & Lg & Vg). exists A, g, z. split; [unfold new_cells_SW; rewrite (dom r Hr); cbn [bind]; rewrite EA; cbn [bind]; rewrite Eg; cbn [bind]; rewrite Ez; reflexivity|].
    exact (step_rank_ok cells nodes labels epart r (Dr r) VM (PAr r Hr) (CS r Hr) B order (W1 dt W) Sl Tl Ps A WA HC HH HGh W1ET co dt g G z Lg Vg LZ HZ). }
  split.
  - intros Phi H HP HDp. destruct (values_ranks SIZE cells nodes npart0 epart st VS q5_zero (stepped cells nodes labels B E dt (W1 dt W) Phi G H) (new_cells_SW co dt st s4 rez)) as (new & EN & VN).
    { intros r Hr. destruct (RK r Hr) as (A & g & z & Q1 & Q2 & _). rewrite Q1. destruct (Q2 Phi H) as (w & Ew & Lw & Vw); [intros c F' Hc HF'; apply HP; [exact (gcell_cell r c Hr Hc) | exact HF'] | intros c Hc; apply HDp; exact (gcell_cell r c Hr Hc)|].
      exists w. split; [exact Ew|]. split; [rewrite Lw; exact (proj1 (sizes r Hr)) | exact Vw]. }
    rewrite EN. cbn [bind]. pose proof (shown_five _ _ _ _ _ _ _ _ F4) as [B1 B2 B3 B4 B5].
    destruct (write_each_ok SIZE cells nodes labels npart0 epart st VS RP CS _ _ _ _ _ _ B1 (field_values SIZE st _ new q_h VN)) as (h & D1 & D2). rewrite D1. cbn [bind].
    destruct (write_each_ok SIZE cells nodes labels npart0 epart st VS RP CS _ _ _ _ _ _ B2 (field_values SIZE st _ new q_hu VN)) as (hu & D3 & D4). rewrite D3. cbn [bind].
    destruct (write_each_ok SIZE cells nodes labels npart0 epart st VS RP CS _ _ _ _ _ _ B3 (field_values SIZE st _ new q_hv VN)) as (hv & D5 & D6). rewrite D5. cbn [bind].
    destruct (write_each_ok SIZE cells nodes labels npart0 epart st VS RP CS _ _ _ _ _ _ B4 (field_values SIZE st _ new q_hc VN)) as (hc & D7 & D8). rewrite D7. cbn [bind].
    destruct (write_each_ok SIZE cells nodes labels npart0 epart st VS RP CS _ _ _ _ _ _ B5 (field_values SIZE st _ new q_Z VN)) as (zz & D9 & D10). rewrite D9. cbn [bind].
    eexists. split; [reflexivity|]. split; [constructor; assumption|]. split; [intros NO; unfold zero_slopes; cbn [sh_gh sh_gc]; rewrite K7, K8; exact (ZS3 NO)|].
    cbn [sh_face]. intros r Hr. destruct (proj2 FO r Hr) as (g & Eg & Lg & _). exists g. auto.
  - intros s' H c F' Hc HF'. apply bind_ok in H as (new & EN & _). destruct (cells_of_ranks c Hc) as (r & a & Hr & Ha & <-).
    assert (HN := mapM_nthZ _ _ _ 0 [] r EN). rewrite nthZ_range, zlen_range in HN by (pose proof size1; lia). specialize (HN ltac:(lia)). destruct (RK r Hr) as (A & g & z & Q1 & _ & Q2). rewrite Q1 in HN. exact (Q2 _ HN a F' Ha HF').
Qed.
End Ranks23.
