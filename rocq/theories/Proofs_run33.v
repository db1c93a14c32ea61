(** * Proofs_run33: the Darcy program from its start (C80). *)
From Coq Require Import Reals Lra Psatz Permutation Sorted.
From Verif Require Import Py PyLemmas Model_part Spec_part Model_label Model_conn Spec_conn Proofs_conn1 Proofs_conn2 Model_geom Spec_geom Proofs_geom1 Proofs_geom2 Proofs_geom3
  Model_halo Spec_halo Model_interp Spec_interp Proofs_interp4 Proofs_interp5 Proofs_interp6 Spec_lsq Proofs_lsq Properties_lsq Model_fvm Spec_fvm Proofs_fvm1 Proofs_fvm2 Properties_fvm Model_bc Spec_bc Spec_bc3 Proofs_label Proofs_bc Proofs_bc2 Proofs_bc3 Properties_bc3 Model_domain Spec_domain Proofs_domain1 Proofs_domain4
  Model_comm Model_parallel Spec_parallel Proofs_parallel1 Proofs_parallel6 Properties_parallel Model_run Spec_run Proofs_run1 Proofs_run2 Proofs_run3 Proofs_run4 Proofs_run5 Proofs_run6 Spec_run2 Model_run2 Proofs_run7 Proofs_run8 Proofs_run9 Proofs_run10 Proofs_run11 Proofs_run12 Proofs_run13 Proofs_run14 Proofs_run15 Spec_run3 Proofs_run16
  Model_poisson Spec_poisson Proofs_poisson1 Proofs_poisson2 Proofs_poisson3 Spec_poisson2 Spec_poisson3 Proofs_poisson4 Proofs_poisson6 Proofs_poisson7 Proofs_poisson8 Proofs_poisson9 Proofs_poisson10 Model_run4 Spec_run6 Proofs_run30 Proofs_run31 Proofs_run32.
From Verif Require Model_linsys Spec_linsys.
Open Scope Z_scope.

Lemma zeros_any {A} (v : A) n i : nthZ v (zeros_like v n) i = v.
Proof. unfold nthZ, zeros_like. exact (map_nth (fun _ : Z => v) (range n) 0 (Z.to_nat i)). Qed.

Section Ranks33.
Context (dim SIZE : Z) (cells : list (list Z)) (nodes : list pt) (labels npart0 epart : list Z) (st : setting).
Hypothesis VM : valid_mesh dim cells nodes labels.
Hypothesis PL : dim = 2 -> planar nodes.
Hypothesis VS : valid_split dim SIZE cells nodes npart0 epart.
Notation Ds := (se_domains st).
Notation Dr := (domain_of (se_domains st)).
Hypothesis RP : represents dim SIZE cells nodes labels epart Ds.
Hypothesis SC : star_connected dim cells.
Hypothesis CS : forall r, 0 <= r < SIZE -> consistent dim (Dr r).
Hypothesis HX : 1 < SIZE -> forall (V : Type) (d : V) (X : Z -> V) (w : list (list V)), values_of d SIZE Ds X w -> exists halo, update_halo_value SIZE (se_comms st) w = Ok halo /\ halo_values_of d SIZE Ds X halo.
Hypothesis SP : spanned dim cells nodes.
Hypothesis TC : get (se_tc st) 0 = Ok (concat (map (owned cells epart) (range SIZE))).
Context (condn condP : option (list (loc * bctype) * list (loc * bcval))).
Notation bc := (conditions dim condn).
Notation vs := (given_values condn).
Notation bcp := (conditions dim condP).
Notation vsp := (given_values condP).
Hypothesis BVp : bc_valid dim bcp vsp.
Hypothesis CWp : corners_whole dim cells labels bcp epart.
Hypothesis BV : bc_valid dim bc vs.
Hypothesis CW : corners_whole dim cells labels bc epart.
Notation PAr := (rp_part _ _ _ _ _ _ _ RP).
Notation size1 := (size11 dim SIZE cells nodes npart0 epart VS).
Notation dom r Hr := (dom11 dim SIZE cells nodes labels epart st RP r Hr).

Lemma no_source sol : sol = Model_linsys.SMumps \/ sol = Model_linsys.SPetsc -> source sol cells SIZE st (map (fun _ => None) (range SIZE)) (fun _ => 0%R).
Proof.
  intros HS r Hr. pose proof size1 as S1. exists None. split; [rewrite (get_nthZ None) by (rewrite zlen_map, zlen_range; lia); rewrite (nthZ_map _ 0) by (rewrite zlen_range; lia); reflexivity|]. destruct HS as [-> | ->]; reflexivity.
Qed.
(** the systems the program hands to the solver: always the same one, which says that the solution is a discrete solution of the Poisson equation *)
Lemma darcy_start_ok spread sol user0 f0 n0 p00 X P0 : sol = Model_linsys.SMumps \/ sol = Model_linsys.SPetsc -> source sol cells SIZE st user0 f0 -> values_of 0%R SIZE Ds X n0 -> values_of 0%R SIZE Ds P0 p00 ->
  exists s0 ss es b, darcy_start condn condP SIZE st sol user0 n0 p00 = Ok (s0, ss, es) /\ handed_rhs SIZE st sol ss (map (fun _ => None) (range SIZE)) = Ok b /\
    (forall r, 0 <= r < SIZE -> exists B, get (ss_bord ss) r = Ok B /\ Spec_linsys.boundary_data (dom_bc (Dr r)) bcp vsp B) /\
    (forall x, zlen x = zlen cells -> (solves (concat es) b (zlen cells) x <-> poisson dim cells nodes labels bcp vsp f0 (nthZ 0%R x))) /\
    darcy_state dim SIZE st bcp vsp bc vs spread P0 X s0.
Proof.
  intros HS S0 HN HP. pose proof size1 as S1. unfold darcy_start.
  destruct (made_ok dim SIZE cells nodes labels npart0 epart st VM VS RP CS condn X n0 BV HN) as (ne & EN & HNE). rewrite EN. cbn [bind].
  destruct (made_ok dim SIZE cells nodes labels npart0 epart st VM VS RP CS condP P0 p00 BVp HP) as (pl & EP & HPL). rewrite EP. cbn [bind].
  assert (HU : usable SIZE sol) by (destruct HS as [-> | ->]; exact I).
  destruct (operator_ok dim SIZE cells nodes labels npart0 epart st VM PL VS RP SC CS bcp vsp BVp SP P0 pl sol user0 f0 _ _ HPL HU S0 (no_source sol HS)) as (ss & es & b & E1 & E2 & E3 & LB & _ & HL).
  rewrite E1. cbn [bind]. rewrite E2. cbn [bind].
  destruct (mapM_ranks (fun r => do D <- get Ds r; ret (zeros_like p0 (zlen (dm_cellid D)))) (fun r x => x = zeros_like p0 (zlen (dm_cellid (Dr r)))) SIZE ltac:(lia)) as (z & EZ & LZ & HZ).
  { intros r Hr. rewrite (dom r Hr). cbn [bind]. eauto. }
  rewrite EZ. cbn [bind].
  destruct (mapM_ranks (fun r => do D <- get Ds r; ret (zeros_like 0%R (zlen (dm_center D)), zeros_like 0%R (zlen (dm_center D)), zeros_like 0%R (zlen (dm_center D)))) (fun r x => x = (zeros_like 0%R (zlen (dm_center (Dr r))), zeros_like 0%R (zlen (dm_center (Dr r))), zeros_like 0%R (zlen (dm_center (Dr r))))) SIZE ltac:(lia)) as (u & EU & LU & HU').
  { intros r Hr. rewrite (dom r Hr). cbn [bind]. eauto. }
  rewrite EU. cbn [bind].
  eexists _, ss, es, b. split; [reflexivity|]. split; [exact E3|]. split; [exact (system_bord dim SIZE cells nodes labels npart0 epart st VM PL VS RP SC CS bcp vsp BVp SP P0 pl (Some sol) user0 ss HPL E1)|]. split.
  - intros x Lx. assert (ET : forall c, total sol f0 (fun _ => 0%R) c = f0 c) by (intros c; unfold total; destruct HS as [-> | ->]; ring). split.
    + intros (_ & HS') c Hc. destruct (HL (nthZ 0%R x) c Hc) as (a & y & Ea & Ey & LP). destruct (HS' c Hc) as (a' & Ea' & Ey'). rewrite Ea in Ea'. injection Ea' as <-. rewrite Ey in Ey'. injection Ey' as ->. rewrite ET in LP. replace (f0 c) with (a - a + f0 c)%R by ring. exact LP.
    + intros HPo. split; [exact Lx|]. intros c Hc. destruct (HL (nthZ 0%R x) c Hc) as (a & y & Ea & Ey & LP). exists a. split; [exact Ea|]. rewrite Ey. f_equal. pose proof (laplacian_unique dim cells nodes labels bcp vsp VM _ _ c _ _ (fun _ _ => eq_refl) Hc LP (HPo c Hc)) as Q. rewrite ET in Q. lra.
  - assert (SZ : sized SIZE st z). { intros r Hr. destruct (HZ r Hr) as (x & Ex & _ & ->). eexists. split; [exact Ex|]. apply zlen_zeros_like. apply zlen_nonneg. }
    split; [exact HNE|]. split; [exact HPL|]. cbn [dk_gne dk_gP dk_vel]. split; [exact SZ|]. split; [|split; [exact SZ|]].
    + intros _ r f Hr. destruct (HZ r Hr) as (x & Ex & _ & ->). rewrite (get_nthZ []) in Ex by lia. injection Ex as ->. apply zeros_any.
    + intros r Hr. destruct (HU' r Hr) as (x & Ex & _ & ->). eexists. split; [exact Ex|]. split; [unfold vel_ok; cbn [fst snd]; rewrite zlen_zeros_like by apply zlen_nonneg; auto|]. intros _ c Hc. cbn [snd]. apply nthZ_zeros_like. unfold iscell_of in Hc. destruct (Proofs_run5.sizes dim SIZE cells nodes labels epart st RP r Hr) as (A & _). lia.
Qed.
End Ranks33.
