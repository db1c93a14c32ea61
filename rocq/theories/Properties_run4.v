(** * Properties_run4: transport of a density in the velocity field of a pressure, on any number of ranks (C80-C82).  Vocabulary: [Spec_run6]. *)
From Coq Require Import Reals Lra Permutation Sorted.
From Verif Require Import Py PyLemmas Model_part Spec_part Model_label Model_conn Spec_conn Model_geom Spec_geom Proofs_geom1 Model_interp Spec_interp Spec_lsq Model_fvm Spec_fvm Proofs_fvm1 Proofs_fvm2 Model_bc Spec_bc Spec_bc3
  Model_domain Spec_domain Model_parallel Spec_parallel Properties_geom Properties_parallel Model_comm Model_run Spec_run Proofs_run1 Proofs_run3 Proofs_run5 Proofs_run6 Properties_run Spec_run2 Model_run2 Proofs_run7 Proofs_run11 Proofs_run13 Proofs_run14 Proofs_run15 Spec_run3 Proofs_run16 Properties_run2
  Model_poisson Spec_poisson Spec_poisson2 Spec_poisson3 Proofs_poisson6 Proofs_poisson7 Proofs_poisson8 Proofs_poisson9 Proofs_poisson10 Properties_poisson Properties_poisson2 Model_run4 Spec_run6 Proofs_run30 Proofs_run31 Proofs_run32 Proofs_run33.
From Verif Require Import Model_linsys.
From Verif Require Spec_linsys Proofs_linsys5.
Open Scope Z_scope.

(** a field held by the ranks may be described by any function with the same values on the cells *)
Lemma holding_same f32 dim SIZE cells nodes labels npart0 epart st X Y l : valid_mesh dim cells nodes labels -> valid_split dim SIZE cells nodes npart0 epart -> setup f32 dim SIZE cells nodes labels npart0 epart = Ok st ->
  (forall c, iscell cells c -> X c = Y c) -> holding SIZE st X l -> holding SIZE st Y l.
Proof.
  intros VM VS Es EQ (ws & E1 & L1 & V1). destruct (C68_parallel_setup f32 _ _ _ _ _ _ _ VM VS) as (s2 & ES & RP & CS & HX). rewrite Es in ES. injection ES as <-. exists ws. split; [exact E1|]. split; [exact L1|].
  intros r Hr. destruct (V1 r Hr) as (A & B). split; [exact A|]. intros c Hc. rewrite (B c Hc). apply EQ. apply (gcell_owned dim cells nodes labels epart r _ (rp_part _ _ _ _ _ _ _ RP r Hr) c Hc).
Qed.

(** C80.  The program starts, and hands to the solver in every turn the same system; its solutions are the discrete pressures with the right hand side f0 on the whole mesh.
    Whatever the solver returns in turn k, the program goes on with it as the pressure: it makes n turns, each with the velocity field of this pressure, the largest time step
    allowed for this field and one step of transport on the whole mesh; it stops as soon as the time has reached tfinal.  Then the ranks hold the density, its values at the
    nodes, the last pressure and its velocity field at the faces. *)
Theorem C80_darcy : forall f32 dim SIZE cells nodes labels npart0 epart condn condP,
  let bc := conditions dim condn in let vs := given_values condn in let bcp := conditions dim condP in let vsp := given_values condP in
  regular dim SIZE cells nodes labels npart0 epart bcp vsp -> bc_valid dim bc vs -> corners_whole dim cells labels bc epart ->
  exists st, setup f32 dim SIZE cells nodes labels npart0 epart = Ok st /\
    forall sol user0 f0 n0 p00 X P0 spread order K cfl tfinal, sol = SMumps \/ sol = SPetsc -> source sol cells SIZE st user0 f0 -> values_of 0%R SIZE (se_domains st) X n0 -> values_of 0%R SIZE (se_domains st) P0 p00 ->
      (0 < cfl)%R -> (0 <= px K + py K + pz K)%R ->
    exists es b, (forall x, zlen x = zlen cells -> (solves es b (zlen cells) x <-> poisson dim cells nodes labels bcp vsp f0 (nthZ 0%R x))) /\
      forall backend fuel, (forall k, zlen (backend k es b) = zlen cells) ->
      let P k := nthZ 0%R (backend k es b) in let flow := darcy_flow dim cells nodes labels bc vs bcp vsp spread order K cfl tfinal P X in
      exists o, darcy fuel spread order K cfl tfinal condn condP SIZE st sol user0 backend n0 p00 = Ok o /\
        match o with
        | Some (t, s) => exists n Y, (n <= fuel)%nat /\ flow n t Y /\ (tfinal <= t)%R /\ holding SIZE st Y (dk_ne s) /\
            match n with
            | O => True
            | Datatypes.S m => holding SIZE st (P m) (dk_P s) /\
                (exists V, velocity_of dim cells nodes labels bcp vsp (P m) V /\ face_field dim cells SIZE st V (dk_gP s)) /\
                exists N, node_field SIZE st N (dk_ne s) /\ forall c g, iscell cells c -> In g (cell cells c) -> nodal_value dim cells nodes labels bc vs Y g (N g)
            end
        | None => exists t Y, flow fuel t Y /\ (t < tfinal)%R
        end.
Proof.
  intros f32 dim SIZE cells nodes labels npart0 epart condn condP bc vs bcp vsp RG BVn CWn. regular_setup f32 RG st E RP CS HX. exists st. split; [exact E|].
  intros sol user0 f0 n0 p00 X P0 spread order K cfl tfinal HS S0 HN HP Hcfl HK. pose proof (setup_tc f32 _ _ _ _ _ _ _ _ VM VS E) as TC.
  destruct (darcy_start_ok dim SIZE cells nodes labels npart0 epart st VM PL VS RP SC CS SP condn condP BV BVn spread sol user0 f0 n0 p00 X P0 HS S0 HN HP) as (s0 & ss & es & b & E1 & E2 & HB & HI & DS).
  exists (concat es), b. split; [exact HI|]. intros backend fuel LB P flow. unfold darcy. rewrite E1. cbn [bind fst snd].
  destruct (darcy_loop_ok dim SIZE cells nodes labels npart0 epart st VM PL VS RP SC CS HX SP TC bcp vsp BV CW bc vs BVn CWn order K cfl Hcfl HK spread sol ss es b HS HB E2 tfinal X backend LB fuel 0%nat 0%R X s0) as (o & EO & HO).
  { split; [exists P0; exact DS | exact I]. }
  { apply flow_start. reflexivity. }
  exists o. split; [exact EO|]. destruct o as [(t, s)|]; [|exact HO]. destruct HO as (n & Y & Hn & FL & Ht & (P1 & DS1) & AF). exists n, Y. split; [lia|]. split; [exact FL|]. split; [exact Ht|].
  split; [exact (holds_holding dim SIZE cells nodes npart0 epart st VS bc vs _ _ (proj1 DS1))|]. destruct n as [|m]; [exact I|]. destruct AF as (HPm & SH & NV & HV). split; [exact (holds_holding dim SIZE cells nodes npart0 epart st VS bcp vsp _ _ HPm)|]. split; [exact HV|].
  exact (shown_nodes dim SIZE cells nodes labels npart0 epart st VM VS RP bc vs Y (dk_ne s) SH NV).
Qed.
Print Assumptions C80_darcy.
(** The conditions hold for a Variable created without boundary conditions: neumann on all the sides. *)
Theorem C80_default_conditions : forall dim cells labels epart, bc_valid dim (conditions dim None) (given_values None) /\ corners_whole dim cells labels (conditions dim None) epart.
Proof. intros dim cells labels epart. split; [exact (open_valid dim) | exact (open_corners dim cells labels epart)]. Qed.

(** Where the discrete pressure P is the only one and the solver solves, all the turns have the same velocity field V and the same time step dt; the program ends after n turns,
    n the first number with tfinal <= n dt. *)
Theorem C80_terminates : forall f32 dim SIZE cells nodes labels npart0 epart condn condP,
  let bc := conditions dim condn in let vs := given_values condn in let bcp := conditions dim condP in let vsp := given_values condP in
  regular dim SIZE cells nodes labels npart0 epart bcp vsp -> bc_valid dim bc vs -> corners_whole dim cells labels bc epart -> sides_closed dim cells nodes labels bcp vsp ->
  exists st, setup f32 dim SIZE cells nodes labels npart0 epart = Ok st /\
    forall sol user0 f0 X P spread order K cfl tfinal, sol = SMumps \/ sol = SPetsc -> source sol cells SIZE st user0 f0 -> (0 < cfl)%R -> (0 <= px K + py K + pz K)%R ->
      poisson dim cells nodes labels bcp vsp f0 P -> (forall P', poisson dim cells nodes labels bcp vsp f0 P' -> forall c, iscell cells c -> P' c = P c) ->
    exists V dt n Y, velocity_of dim cells nodes labels bcp vsp P V /\ (0 < dt)%R /\ largest_driven dim cells nodes V K cfl dt /\ (tfinal <= INR n * dt)%R /\ (forall m, (m < n)%nat -> (INR m * dt < tfinal)%R) /\
      darcy_flow dim cells nodes labels bc vs bcp vsp spread order K cfl tfinal (fun _ => P) X n (INR n * dt) Y /\
      forall n0 p00 P0 backend fuel, values_of 0%R SIZE (se_domains st) X n0 -> values_of 0%R SIZE (se_domains st) P0 p00 -> (forall k, solving (zlen cells) (backend k)) -> (n <= fuel)%nat ->
      exists s, darcy fuel spread order K cfl tfinal condn condP SIZE st sol user0 backend n0 p00 = Ok (Some (INR n * dt, s))%R /\ holding SIZE st Y (dk_ne s) /\
        (n = O \/ holding SIZE st P (dk_P s) /\ exists V', face_field dim cells SIZE st V' (dk_gP s) /\ forall c F, iscell cells c -> In F (facets (cell cells c)) -> V' c F = V c F).
Proof.
  intros f32 dim SIZE cells nodes labels npart0 epart condn condP bc vs bcp vsp RG BVn CWn SD. destruct (C80_darcy f32 _ _ _ _ _ _ _ condn condP RG BVn CWn) as (st & E & H). exists st. split; [exact E|].
  intros sol user0 f0 X P spread order K cfl tfinal HS S0 Hcfl HK HPo UN. pose proof (rg_mesh _ _ _ _ _ _ _ _ _ RG) as VM. pose proof (rg_split _ _ _ _ _ _ _ _ _ RG) as VS.
  (* any field lies on the ranks *)
  destruct (C68_parallel_setup f32 _ _ _ _ _ _ _ VM VS) as (st2 & ES & RP & CS & HX). rewrite E in ES. injection ES as <-.
  assert (PUT : forall Z0 : Z -> R, exists w, values_of 0%R SIZE (se_domains st) Z0 w). { intros Z0. destruct (C70_any_field f32 _ _ _ _ _ _ _ _ _ Z0 RG) as (st2 & ES & l & _ & (w & _ & Hw)). rewrite E in ES. injection ES as <-. exists w. exact Hw. }
  destruct (PUT X) as (n1 & HN1). destruct (PUT P) as (p1 & HP1).
  (* a run with the exact pressure, at least one turn *)
  set (x := map P (range (zlen cells))). assert (Lx : zlen x = zlen cells) by (unfold x; rewrite zlen_map; apply zlen_range, zlen_nonneg).
  assert (Ex : forall c, iscell cells c -> nthZ 0%R x c = P c). { intros c Hc. unfold x. unfold iscell in Hc. rewrite (nthZ_map _ 0) by (rewrite zlen_range; lia). rewrite nthZ_range by lia. reflexivity. }
  destruct (H sol user0 f0 n1 p1 X P spread order K cfl 1%R HS S0 HN1 HP1 Hcfl HK) as (es1 & b1 & _ & R1). specialize (R1 (fun _ _ _ => x) 1%nat (fun _ => Lx)). cbv zeta in R1.
  assert (FV : exists V dt, velocity_of dim cells nodes labels bcp vsp P V /\ largest_driven dim cells nodes V K cfl dt).
  { assert (FT : forall n t Y, (0 < n)%nat -> darcy_flow dim cells nodes labels bc vs bcp vsp spread order K cfl 1 (fun _ => nthZ 0%R x) X n t Y -> exists V dt, velocity_of dim cells nodes labels bcp vsp P V /\ largest_driven dim cells nodes V K cfl dt).
    { intros n t Y Hn FL. inversion FL as [|n2 t2 Y2 V dt Y3 FL2 Ht HV HL HSt]; subst; [lia|]. exists V, dt. split; [|exact HL]. exact (velocity_same dim cells nodes labels VM bcp vsp _ P V Ex HV). }
    destruct R1 as (o & _ & HO). destruct o as [(t, s)|].
    - destruct HO as (n & Y & _ & FL & Ht & _). apply (FT n t Y); [|exact FL]. destruct n; [|lia]. inversion FL; subst. exfalso. lra.
    - destruct HO as (t & Y & FL & _). apply (FT 1%nat t Y); [lia | exact FL]. }
  destruct FV as (V & dt & HV & HL).
  assert (PD : (0 < dt)%R).
  { destruct (Rlt_dec 0 dt) as [A|A]; [exact A|]. exfalso.
    (* the positive lower bound: the largest step is positive *)
    assert (Q : exists d, (0 < d)%R /\ driven_cfl dim cells nodes V K cfl d).
    { destruct (positive_step (fun c => full_speed cells nodes (mean_velocity dim cells V c) K c) (fun c => cfl * measure_of cells nodes c)%R (zlen cells)) as (d & Hd & Hd1 & Hd2).
      - intros c Hc. split; [|apply Rmult_lt_0_compat; [exact Hcfl | exact (cell_positive dim cells nodes labels c VM Hc)]]. apply speed_nonneg; [exact HK|]. exact (cell_positive dim cells nodes labels c VM Hc).
      - exists d. split; [exact Hd|]. split; [exact Hd1 | exact Hd2]. }
    destruct Q as (d & Hd & HC). pose proof (proj2 HL d HC). lra. }
  destruct (steps dt tfinal PD) as (n & T1 & T2).
  set (flow := fun Pk => darcy_flow dim cells nodes labels bc vs bcp vsp spread order K cfl tfinal Pk X).
  assert (TM : forall Pk, (forall k c, iscell cells c -> Pk k c = P c) -> forall m t Y, flow Pk m t Y -> t = (INR m * dt)%R) by (intros Pk EP; exact (flow_time dim cells nodes labels VM bc vs bcp vsp spread order K cfl tfinal Pk P V dt X SD EP HV HL)).
  assert (LAST : forall Pk m t Y, (forall k c, iscell cells c -> Pk k c = P c) -> flow Pk m t Y -> (tfinal <= t)%R -> m = n).
  { intros Pk m t Y EP FL Ht. pose proof (TM Pk EP m t Y FL) as ->. destruct (Nat.lt_trichotomy m n) as [L|[L|L]]; [|exact L|]; exfalso.
    - specialize (T2 m L). lra.
    - destruct (flow_before dim cells nodes labels bc vs bcp vsp spread order K cfl tfinal Pk X m _ Y FL n L) as (t' & Y' & FL' & B). rewrite (TM Pk EP n t' Y' FL') in B. lra. }
  assert (NEXT : forall Pk m t Y, (forall k c, iscell cells c -> Pk k c = P c) -> (n <= m)%nat -> flow Pk m t Y -> (t < tfinal)%R -> False).
  { intros Pk m t Y EP Hm FL Ht. rewrite (TM Pk EP m t Y FL) in Ht. apply le_INR in Hm. assert (INR n * dt <= INR m * dt)%R by (apply Rmult_le_compat_r; lra). lra. }
  (* the mesh-level evolution *)
  assert (FY : exists Y, flow (fun _ => P) n (INR n * dt)%R Y).
  { destruct (H sol user0 f0 n1 p1 X P spread order K cfl tfinal HS S0 HN1 HP1 Hcfl HK) as (es2 & b2 & _ & R2). destruct (R2 (fun _ _ _ => x) n (fun _ => Lx)) as (o & _ & HO). cbv zeta in HO. fold (flow (fun _ => nthZ 0%R x)) in HO.
    assert (EPx : forall (k : nat) c, iscell cells c -> (fun _ : nat => nthZ 0%R x) k c = P c) by (intros k c Hc; exact (Ex c Hc)). destruct o as [(t, s)|].
    - destruct HO as (m & Y & _ & FL & Ht & _). pose proof (LAST _ m t Y EPx FL Ht) as ->. rewrite (TM _ EPx n t Y FL) in FL. exists Y. exact (flow_same dim cells nodes labels VM bc vs bcp vsp spread order K cfl tfinal _ (fun _ => P) X n _ Y EPx FL).
    - destruct HO as (t & Y & FL & Ht). exfalso. exact (NEXT _ n t Y EPx (le_n n) FL Ht). }
  destruct FY as (Y & FY). exists V, dt, n, Y. split; [exact HV|]. split; [exact PD|]. split; [exact HL|]. split; [exact T1|]. split; [exact T2|]. split; [exact FY|].
  intros n0 p00 P0 backend fuel HN HP HSv Hf. destruct (H sol user0 f0 n0 p00 X P0 spread order K cfl tfinal HS S0 HN HP Hcfl HK) as (es & b & HI & R).
  assert (SV : forall k, solves es b (zlen cells) (backend k es b)). { intros k. apply HSv. exists x. apply HI; [exact Lx|]. intros c Hc. exact (laplacian_same dim cells nodes labels bcp vsp VM P _ c _ (fun d Hd => eq_sym (Ex d Hd)) Hc (HPo c Hc)). }
  assert (LB : forall k, zlen (backend k es b) = zlen cells) by (intros k; exact (proj1 (SV k))). specialize (R backend fuel LB). cbv zeta in R. set (Pk := fun k => nthZ 0%R (backend k es b)) in R. fold (flow Pk) in R.
  assert (EPk : forall k c, iscell cells c -> Pk k c = P c) by (intros k; exact (UN (Pk k) (proj1 (HI _ (LB k)) (SV k)))).
  destruct R as (o & EO & HO). destruct o as [(t, s)|].
  - destruct HO as (m & Y' & _ & FL & Ht & HH & HM). pose proof (LAST Pk m t Y' EPk FL Ht) as ->. pose proof (TM Pk EPk n t Y' FL) as ->. exists s. split; [exact EO|].
    destruct (flow_unique dim cells nodes labels VM bc vs bcp vsp spread order K cfl tfinal Pk (fun _ => P) X X SD EPk (fun _ _ => eq_refl) n _ Y' _ Y FL FY) as (_ & EY). split; [exact (holding_same f32 dim SIZE cells nodes labels npart0 epart st Y' Y _ VM VS E EY HH)|].
    destruct n as [|m]; [left; reflexivity|right]. destruct HM as (HPm & (V' & HV' & FF) & _). split; [exact (holding_same f32 dim SIZE cells nodes labels npart0 epart st (Pk m) P _ VM VS E (EPk m) HPm)|]. exists V'. split; [exact FF|]. exact (velocity_unique dim cells nodes labels VM bcp vsp (Pk m) P V' V SD (EPk m) HV' HV).
  - destruct HO as (t & Y' & FL & Ht). exfalso. exact (NEXT Pk fuel t Y' EPk Hf FL Ht).
Qed.
Print Assumptions C80_terminates.

(** C81.  The number of turns, the time and the density do not depend on the number of ranks, the distribution of the cells, the initial pressure or the solver, provided the
    discrete pressure is the only one and the solvers solve. *)
Theorem C81_same_result : forall f32 dim cells nodes labels condn condP SIZE npart0 epart SIZE' npart0' epart',
  let bc := conditions dim condn in let vs := given_values condn in let bcp := conditions dim condP in let vsp := given_values condP in
  regular dim SIZE cells nodes labels npart0 epart bcp vsp -> regular dim SIZE' cells nodes labels npart0' epart' bcp vsp -> bc_valid dim bc vs -> corners_whole dim cells labels bc epart -> corners_whole dim cells labels bc epart' ->
  sides_closed dim cells nodes labels bcp vsp ->
  exists st st', setup f32 dim SIZE cells nodes labels npart0 epart = Ok st /\ setup f32 dim SIZE' cells nodes labels npart0' epart' = Ok st' /\
    forall sol sol' user0 user0' f0 X P spread order K cfl tfinal, sol = SMumps \/ sol = SPetsc -> sol' = SMumps \/ sol' = SPetsc -> source sol cells SIZE st user0 f0 -> source sol' cells SIZE' st' user0' f0 -> (0 < cfl)%R -> (0 <= px K + py K + pz K)%R ->
      poisson dim cells nodes labels bcp vsp f0 P -> (forall P', poisson dim cells nodes labels bcp vsp f0 P' -> forall c, iscell cells c -> P' c = P c) ->
    exists n time Y, forall n0 p00 P0 backend n0' p00' P0' backend' fuel, values_of 0%R SIZE (se_domains st) X n0 -> values_of 0%R SIZE (se_domains st) P0 p00 -> (forall k, solving (zlen cells) (backend k)) ->
      values_of 0%R SIZE' (se_domains st') X n0' -> values_of 0%R SIZE' (se_domains st') P0' p00' -> (forall k, solving (zlen cells) (backend' k)) -> (n <= fuel)%nat ->
      exists s s', darcy fuel spread order K cfl tfinal condn condP SIZE st sol user0 backend n0 p00 = Ok (Some (time, s)) /\ darcy fuel spread order K cfl tfinal condn condP SIZE' st' sol' user0' backend' n0' p00' = Ok (Some (time, s')) /\
        holding SIZE st Y (dk_ne s) /\ holding SIZE' st' Y (dk_ne s').
Proof.
  intros f32 dim cells nodes labels condn condP SIZE npart0 epart SIZE' npart0' epart' bc vs bcp vsp RG RG' BVn CWn CWn' SD.
  destruct (C80_terminates f32 _ _ _ _ _ _ _ condn condP RG BVn CWn SD) as (st & E & H). destruct (C80_terminates f32 _ _ _ _ _ _ _ condn condP RG' BVn CWn' SD) as (st' & E' & H'). exists st, st'. split; [exact E|]. split; [exact E'|].
  intros sol sol' user0 user0' f0 X P spread order K cfl tfinal HS HS' S0 S0' Hcfl HK HPo UN. pose proof (rg_mesh _ _ _ _ _ _ _ _ _ RG) as VM.
  destruct (H sol user0 f0 X P spread order K cfl tfinal HS S0 Hcfl HK HPo UN) as (V & dt & n & Y & HV & PD & HL & T1 & T2 & FL & R). destruct (H' sol' user0' f0 X P spread order K cfl tfinal HS' S0' Hcfl HK HPo UN) as (V' & dt' & n' & Y' & HV' & PD' & HL' & T1' & T2' & FL' & R').
  destruct (flow_end dim cells nodes labels VM bc vs bcp vsp spread order K cfl tfinal (fun _ => P) (fun _ => P) X X n' _ Y' n _ Y SD (fun _ _ _ => eq_refl) (fun _ _ => eq_refl) FL' T1' FL T1) as (-> & ET & EY).
  exists n, (INR n * dt)%R, Y. intros n0 p00 P0 backend n0' p00' P0' backend' fuel A1 A2 A3 B1 B2 B3 Hf.
  destruct (R n0 p00 P0 backend fuel A1 A2 A3 Hf) as (s & ER & HO & _). destruct (R' n0' p00' P0' backend' fuel B1 B2 B3 Hf) as (s' & ER' & HO' & _). exists s, s'. split; [exact ER|]. rewrite ET in ER'. split; [exact ER'|]. split; [exact HO|].
  exact (holding_same f32 dim SIZE' cells nodes labels npart0' epart' st' Y' Y _ VM (rg_split _ _ _ _ _ _ _ _ _ RG') E' EY HO').
Qed.
Print Assumptions C81_same_result.

(** C82.  The balance of a turn: the sum of volume times density changes by what enters through the boundary of the mesh only.  The velocity field of any pressure is the same on both
    sides of a facet inside the mesh, also where two ranks meet. *)
Theorem C82_balance : forall dim cells nodes labels bc vs bcp vsp order K dt P V X Y S L N G,
  valid_mesh dim cells nodes labels -> velocity_of dim cells nodes labels bcp vsp P V -> driven_step dim cells nodes labels bc vs order V K dt X Y -> reconstruction dim cells nodes labels bc vs X S L N G ->
  (forall c d F, has_facet dim cells c F -> beside cells c F = Some d -> V d F = V c F) /\
  rsum (map (fun c => measure_of cells nodes c * Y c)%R (range (zlen cells))) =
    (rsum (map (fun c => measure_of cells nodes c * X c) (range (zlen cells))) +
     dt * rsum (map (fun p => entering dim cells nodes labels bc vs order (V (fst p) (snd p)) K X S L G (fst p) (snd p)) (boundary_facets cells)))%R.
Proof.
  intros dim cells nodes labels bc vs bcp vsp order K dt P V X Y S L N G VM HV HS HR.
  assert (SW : forall c d F, has_facet dim cells c F -> beside cells c F = Some d -> V d F = V c F) by (intros c d F HF E; exact (velocity_swap dim cells nodes labels VM bcp vsp P V c d F HV HF E)). split; [exact SW|].
  exact (driven_mass dim cells nodes labels VM bc vs order V K dt X Y S L N G SW HR HS).
Qed.
Print Assumptions C82_balance.
(** Without a source the velocity field of a discrete pressure carries as much into each cell as out of it; with the right hand side f it carries in volume times f more. *)
Theorem C82_incompressible : forall dim cells nodes labels bcp vsp f P V, valid_mesh dim cells nodes labels -> sides_closed dim cells nodes labels bcp vsp -> poisson dim cells nodes labels bcp vsp f P ->
  velocity_of dim cells nodes labels bcp vsp P V -> forall c, iscell cells c -> rsum (map (fun F => vdot (V c F) (outward cells nodes c F)) (facets (cell cells c))) = (- (measure_of cells nodes c * f c))%R.
Proof. intros dim cells nodes labels bcp vsp f P V VM SD HP HV. exact (velocity_divergence dim cells nodes labels VM bcp vsp P V f SD HP HV). Qed.
(** So a constant density stays constant, first or second order, with or without diffusion, when the dirichlet values of the density are this constant: in the program, on any
    number of ranks, whatever the solver that solves. *)
Theorem C82_constant : forall f32 dim SIZE cells nodes labels npart0 epart condn condP k,
  let bc := conditions dim condn in let vs := given_values condn in let bcp := conditions dim condP in let vsp := given_values condP in
  regular dim SIZE cells nodes labels npart0 epart bcp vsp -> bc_valid dim bc vs -> corners_whole dim cells labels bc epart -> sides_closed dim cells nodes labels bcp vsp -> dirichlet_within k k bc vs ->
  exists st, setup f32 dim SIZE cells nodes labels npart0 epart = Ok st /\
    forall sol user0 n0 p00 P0 P spread order K cfl tfinal backend fuel, sol = SMumps \/ sol = SPetsc -> source sol cells SIZE st user0 (fun _ => 0%R) -> values_of 0%R SIZE (se_domains st) (fun _ => k) n0 -> values_of 0%R SIZE (se_domains st) P0 p00 ->
      (0 < cfl)%R -> (0 <= px K + py K + pz K)%R -> poisson dim cells nodes labels bcp vsp (fun _ => 0%R) P -> (forall j, solving (zlen cells) (backend j)) ->
    exists o, darcy fuel spread order K cfl tfinal condn condP SIZE st sol user0 backend n0 p00 = Ok o /\ forall t s, o = Some (t, s) -> (tfinal <= t)%R /\ holding SIZE st (fun _ => k) (dk_ne s).
Proof.
  intros f32 dim SIZE cells nodes labels npart0 epart condn condP k bc vs bcp vsp RG BVn CWn SD HD. destruct (C80_darcy f32 _ _ _ _ _ _ _ condn condP RG BVn CWn) as (st & E & H). exists st. split; [exact E|].
  intros sol user0 n0 p00 P0 P spread order K cfl tfinal backend fuel HS S0 HN HP Hcfl HK HPo HSv. pose proof (rg_mesh _ _ _ _ _ _ _ _ _ RG) as VM.
  destruct (H sol user0 _ n0 p00 _ P0 spread order K cfl tfinal HS S0 HN HP Hcfl HK) as (es & b & HI & R).
  set (x := map P (range (zlen cells))). assert (Lx : zlen x = zlen cells) by (unfold x; rewrite zlen_map; apply zlen_range, zlen_nonneg).
  assert (Ex : forall c, iscell cells c -> nthZ 0%R x c = P c). { intros c Hc. unfold x. unfold iscell in Hc. rewrite (nthZ_map _ 0) by (rewrite zlen_range; lia). rewrite nthZ_range by lia. reflexivity. }
  assert (SV : forall j, solves es b (zlen cells) (backend j es b)). { intros j. apply HSv. exists x. apply HI; [exact Lx|]. intros c Hc. exact (laplacian_same dim cells nodes labels bcp vsp VM P _ c _ (fun d Hd => eq_sym (Ex d Hd)) Hc (HPo c Hc)). }
  assert (LB : forall j, zlen (backend j es b) = zlen cells) by (intros j; exact (proj1 (SV j))). destruct (R backend fuel LB) as (o & EO & HO). cbv zeta in HO. exists o. split; [exact EO|]. intros t s ->. destruct HO as (n & Y & _ & FL & Ht & HH & _). split; [exact Ht|].
  refine (holding_same f32 dim SIZE cells nodes labels npart0 epart st Y _ _ VM (rg_split _ _ _ _ _ _ _ _ _ RG) E _ HH).
  refine (flow_constant dim cells nodes labels VM bc vs bcp vsp spread order K cfl tfinal k _ (fun _ => k) SD HD _ _ n t Y FL); [|reflexivity]. intros j. apply HI; [exact (LB j) | exact (SV j)].
Qed.
Print Assumptions C82_constant.
(** Bounds: with the first order scheme without diffusion, a step during which not more than its volume enters each cell keeps the density between the bounds of its values and of the
    dirichlet values.  (The time step of the program does not ensure this: it is taken from the mean of the velocities at the facets of a cell, which may be small although much
    enters the cell: C82_time_step_refuted.) *)
Theorem C82_bounds : forall dim cells nodes labels bc vs bcp vsp P V lo hi dt X Y,
  valid_mesh dim cells nodes labels -> sides_closed dim cells nodes labels bcp vsp -> poisson dim cells nodes labels bcp vsp (fun _ => 0%R) P -> velocity_of dim cells nodes labels bcp vsp P V -> dirichlet_within lo hi bc vs -> (0 <= dt)%R ->
  (forall c, iscell cells c -> dt * rsum (map (fun F => Rmax 0 (- vdot (V c F) (outward cells nodes c F))) (facets (cell cells c))) <= measure_of cells nodes c)%R ->
  (forall c, iscell cells c -> lo <= X c <= hi)%R -> driven_step dim cells nodes labels bc vs 1 V vzero dt X Y -> forall c, iscell cells c -> (lo <= Y c <= hi)%R.
Proof.
  intros dim cells nodes labels bc vs bcp vsp P V lo hi dt X Y VM SD HP HV HD Hdt HI HX HS. refine (driven_within dim cells nodes labels VM bc vs lo hi V dt X Y HD Hdt _ HI HX HS).
  intros c Hc. rewrite (velocity_divergence dim cells nodes labels VM bcp vsp P V _ SD HP HV c Hc). ring.
Qed.
Print Assumptions C82_bounds.
