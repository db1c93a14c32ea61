(** * Proofs_poisson7: the solution comes back to the ranks. *)
From Coq Require Import Reals Lra Permutation Sorted.
From Verif Require Import Py PyLemmas Model_part Spec_part Model_label Model_conn Spec_conn Proofs_conn1 Proofs_conn2 Model_geom Spec_geom Proofs_geom1 Proofs_geom2 Proofs_geom3
  Model_halo Spec_halo Model_interp Spec_interp Proofs_interp4 Proofs_interp5 Proofs_interp6 Spec_lsq Proofs_lsq Properties_lsq Model_fvm Spec_fvm Proofs_fvm1 Proofs_fvm2 Properties_fvm Model_bc Spec_bc Spec_bc3 Proofs_label Proofs_bc Proofs_bc2 Proofs_bc3 Properties_bc3 Model_domain Spec_domain Proofs_domain1 Proofs_domain4
  Model_comm Model_parallel Spec_parallel Proofs_parallel1 Proofs_parallel6 Properties_parallel Model_run Spec_run Proofs_run1 Proofs_run2 Proofs_run3 Proofs_run4 Proofs_run5 Proofs_run6 Spec_run2 Model_run2 Proofs_run7 Proofs_run8 Proofs_run9 Proofs_run10 Proofs_run11 Proofs_run12 Proofs_run13 Proofs_run14 Proofs_run15 Spec_run3 Proofs_run16 Model_poisson Spec_poisson Proofs_poisson1 Proofs_poisson2 Proofs_poisson3 Spec_poisson2 Proofs_poisson4 Proofs_poisson5 Proofs_poisson6.
From Verif Require Model_linsys Spec_linsys Properties_linsys Proofs_periodic Proofs_linsys1 Proofs_linsys5 Proofs_part2 Proofs_part4 Proofs_comm Model_file Properties_file Properties_part Proofs_parallel2.
Open Scope Z_scope.

(** ** The order in which rank 0 sends the cells to the ranks *)
Lemma setup_tc f32 dim SIZE cells nodes labels npart0 epart st : valid_mesh dim cells nodes labels -> valid_split dim SIZE cells nodes npart0 epart -> setup f32 dim SIZE cells nodes labels npart0 epart = Ok st ->
  get (se_tc st) 0 = Ok (concat (map (owned cells epart) (range SIZE))).
Proof.
  intros VM VS E. pose proof (vs_size _ _ _ _ _ _ VS) as HS. unfold setup in E. apply bind_ok in E as (mds & Em & E). apply bind_ok in E as (Ls & _ & E). apply bind_ok in E as (cm & _ & E). apply bind_ok in E as (Ds & _ & E). injection E as <-. cbn [se_tc].
  unfold partition_and_read in Em. destruct (Z.eqb_spec SIZE 1) as [E1|N1].
  - rewrite E1 in Em. change (range 1) with [0] in Em. cbn [mapM] in Em. rewrite (Properties_file.C08_sequential_file_roundtrip 0 cells nodes labels [] (eq_sym (proj1 (vm_labels _ _ _ _ VM)))) in Em. cbn [bind] in Em. injection Em as <-. rewrite E1. change (range 1) with [0]. cbn [map concat Model_file.md_tc]. rewrite app_nil_r.
    change (get [range (zlen cells)] 0) with (Ok (range (zlen cells))). f_equal. unfold owned. assert (G : forall l, (forall c, In c l -> owner epart c = 0) -> filter (fun c => owner epart c =? 0) l = l).
    { induction l as [|c l IH]; intros H; [reflexivity|]. cbn [filter]. rewrite (H c (or_introl eq_refl)). cbn [Z.eqb]. rewrite IH by (intros; apply H; right; assumption). reflexivity. }
    symmetry. apply G. intros c Hc. apply in_range in Hc. pose proof (proj2 (vs_owners _ _ _ _ _ _ VS) c Hc). lia.
  - assert (H1 : 1 < SIZE) by lia. apply bind_ok in Em as (pa & Epa & Em). pose proof (Proofs_parallel2.input_ok dim SIZE cells nodes labels npart0 epart VM VS H1) as WI. destruct (vs_several _ _ _ _ _ _ VS H1) as (LN & MC & _).
    destruct (mapM_rank _ _ _ 0 Em ltac:(lia)) as (Lm & md & Emd & Er). destruct (Properties_file.C08_rank_files_roundtrip _ _ _ _ _ _ _ _ H1 WI MC Epa 0 ltac:(lia)) as (file & md' & A & B & TC & _). rewrite A in Er. cbn [bind] in Er. rewrite B in Er. injection Er as <-. cbn [Z.eqb] in TC.
    destruct (get_ok_nthZ md' mds 0 md' Emd ltac:(lia)) as (_ & En). rewrite (get_nthZ []) by (rewrite zlen_map; lia). rewrite (nthZ_map _ md') by lia. rewrite <- En, TC. f_equal. destruct (Properties_part.C02_GtoL_is_a_permutation _ _ _ _ _ _ _ _ WI MC Epa) as (_ & ->).
    destruct (Proofs_part4.readmesh_inv _ _ _ _ _ _ _ _ WI MC Epa) as (_ & HL & H). f_equal. apply (nthZ_ext []); [rewrite !zlen_map, zlen_range; lia|]. intros r Hr. rewrite zlen_map in Hr. rewrite (nthZ_map _ empty_file) by lia. rewrite (nthZ_map _ 0) by (rewrite zlen_range; lia). rewrite nthZ_range by lia. exact (fo_l2g _ _ _ _ _ _ _ (H r ltac:(lia))).
Qed.

Section Ranks7.
Context (dim SIZE : Z) (cells : list (list Z)) (nodes : list pt) (labels npart0 epart : list Z) (st : setting).
Hypothesis VM : valid_mesh dim cells nodes labels.
Hypothesis VS : valid_split dim SIZE cells nodes npart0 epart.
Notation Ds := (se_domains st).
Notation Dr := (domain_of (se_domains st)).
Hypothesis RP : represents dim SIZE cells nodes labels epart Ds.
Hypothesis CS : forall r, 0 <= r < SIZE -> consistent dim (Dr r).
Hypothesis TC : get (se_tc st) 0 = Ok (concat (map (owned cells epart) (range SIZE))).
Context (bc : list (loc * bctype)) (vs : list (loc * bcval)).
Notation PAr := (rp_part _ _ _ _ _ _ _ RP).
Notation holds := (holds SIZE st bc vs).
Notation sizes := (Proofs_run5.sizes dim SIZE cells nodes labels epart st RP).
Notation size1 := (size11 dim SIZE cells nodes npart0 epart VS).
Notation gc r := (gcell (Dr r)).
Notation gs := (zlen cells).

Lemma deliver_ok X0 l x : holds X0 l -> zlen x = gs -> exists l', deliver SIZE st l x = Ok l' /\ holds (nthZ 0%R x) l' /\ (history bc vs SIZE st l -> history bc vs SIZE st l').
Proof.
  intros (ws & L & HV & H) Lx. pose proof size1 as S1. unfold deliver. rewrite TC. cbn [bind]. rewrite (global_size_ok dim SIZE cells nodes labels npart0 epart st VS RP CS).
  assert (E : map (owned cells epart) (range SIZE) = map (fun r => dm_loctoglob (Dr r)) (range SIZE)) by (apply map_ext_in; intros r Hr; apply in_range in Hr; symmetry; exact (pa_cells _ _ _ _ _ _ _ (PAr r Hr))).
  pose proof (all_cells dim SIZE cells nodes labels npart0 epart st VS RP) as PM. rewrite E.
  unfold solve_scatter. rewrite (Proofs_comm.convert_solution_ok 0%R).
  2: { unfold zlen at 2. rewrite (Permutation_length PM). fold (zlen (range gs)). symmetry. apply zlen_range. apply zlen_nonneg. }
  2: { apply zlen_zeros_like. apply zlen_nonneg. }
  2: { intros t Ht. rewrite Lx. apply in_range. exact (Permutation_in _ PM Ht). }
  cbn [bind]. set (parts := map (fun r => map (nthZ 0%R x) (dm_loctoglob (Dr r))) (range SIZE)).
  assert (EP : scatterv (map (fun D => zlen (dm_center D)) Ds) (map (nthZ 0%R x) (concat (map (fun r => dm_loctoglob (Dr r)) (range SIZE)))) = parts).
  { rewrite (domains_map dim SIZE cells nodes labels npart0 epart st VS RP CS (fun D => zlen (dm_center D))), concat_map, map_map. fold parts.
    replace (map (fun r => zlen (dm_center (Dr r))) (range SIZE)) with (map zlen parts); [apply Proofs_comm.scatterv_concat|]. unfold parts. rewrite map_map. apply map_ext_in. intros r Hr. apply in_range in Hr. rewrite zlen_map. symmetry. apply sizes. exact Hr. }
  rewrite EP. cbn [bind]. assert (PR : forall r, 0 <= r < SIZE -> nthZ [] parts r = map (nthZ 0%R x) (dm_loctoglob (Dr r))) by (intros r Hr; unfold parts; rewrite (nthZ_map _ 0) by (rewrite zlen_range; lia); rewrite nthZ_range by lia; reflexivity).
  assert (LP : zlen parts = SIZE) by (unfold parts; rewrite zlen_map, zlen_range; lia).
  destruct (mapM_ranks (fun r => do v <- get l r; do w <- get parts r; write_array v (va_cell v) w) (fun r v => vfull (dom_bc (Dr r)) bc vs (nthZ [] parts r) v) SIZE ltac:(lia)) as (l' & E' & L' & H').
  { intros r Hr. destruct (H r Hr) as (v & Ev & FV). rewrite Ev. cbn [bind]. rewrite (get_nthZ []) by lia. cbn [bind]. rewrite (full_ref _ _ _ _ _ FV). destruct (wb_size _ (cs_bc _ _ (CS r Hr))) as (Q & _).
    destruct (full_write (dom_bc (Dr r)) bc vs _ v 0 (nthZ [] parts r) FV) as (v2 & EW & FV' & _); [lia | change (nthZ [] (vs_heap (init_state (dom_bc (Dr r)))) 0) with (zeros_like 0%R (bd_nbcells (dom_bc (Dr r)))); rewrite zlen_zeros_like by exact Q; cbn [dom_bc bd_nbcells]; rewrite (PR r Hr), zlen_map; symmetry; apply sizes; exact Hr|].
    exists v2. split; [exact EW | exact FV']. }
  exists l'. split; [exact E'|]. split.
  - exists parts. split; [exact L'|]. split.
    + split; [exact LP|]. intros r Hr. rewrite (PR r Hr), zlen_map. split; [reflexivity|]. intros c Hc. rewrite (nthZ_map _ (-1)) by exact Hc. reflexivity.
    + intros r Hr. destruct (H' r Hr) as (v & Ev & _ & FV). exists v. auto.
  - intros HH. apply (h_assigned bc vs SIZE st l parts l' HH); [|exact E']. intros r Hr. rewrite (PR r Hr), zlen_map. symmetry. apply sizes. exact Hr.
Qed.
End Ranks7.
