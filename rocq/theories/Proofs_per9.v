(** * Proofs_per9: saving on a periodic mesh (one rank). *)
From Coq Require Import String Reals Lra Permutation Sorted.
From Verif Require Import Py PyLemmas Model_part Spec_part Model_label Proofs_label Model_conn Spec_conn Proofs_conn1 Proofs_conn2 Proofs_conn3 Model_geom Spec_geom Proofs_geom1 Proofs_geom2 Proofs_geom3
  Model_halo Spec_halo Proofs_halo1 Proofs_halo2 Proofs_halo3 Properties_halo
  Model_periodic Spec_periodic Model_interp Spec_interp Properties_interp Model_fvm Spec_fvm Model_bc Spec_bc Model_domain Spec_domain Proofs_domain1 Proofs_domain2 Proofs_domain4 Model_parallel Spec_parallel
  Properties_parallel Model_comm Model_run Spec_run Proofs_run3.
From Verif Require Import Spec_per Proofs_per1 Proofs_per2 Proofs_per3.
From Verif Require Import Model_save Spec_save Proofs_save Properties_save.
Open Scope Z_scope.

Section Per.
Context (f32 : R -> R) (dim : Z) (cells : list (list Z)) (nodes : list pt) (labels npart0 epart : list Z).
Hypothesis PM : periodic_mesh dim cells nodes labels f32.
Hypothesis VS : valid_split dim 1 cells nodes npart0 epart.
Notation ones := (ones nodes).
Notation K := (alone (zlen nodes) (zlen cells)).
Notation VM1 := (VM1 f32 dim cells nodes labels PM).
Notation VR1 := (VR1 f32 dim cells nodes labels npart0 epart PM VS).
Lemma twin_setup : exists g cn h nodecell cellnid nv di, parts dim 1 cells nodes ones K g cn h nodecell cellnid /\
  let D1 := assembled dim cells nodes ones K g cn h nodecell cellnid nv di in
  setup f32 dim 1 cells nodes ones npart0 epart = Ok {| se_domains := [D1]; se_comms := []; se_tc := [range (zlen cells)] |} /\ part_of dim cells nodes ones epart 0 D1.
Proof.
  destruct (parts_exist dim 1 cells nodes ones K VR1) as (g & cn & h & nodecell & cellnid & P). destruct (build_ok f32 dim 1 cells nodes ones K g cn h nodecell cellnid VR1 P) as (nv & di & EB & _). cbv zeta in EB.
  destruct (Proofs_parallel3.first_ok f32 dim 1 cells nodes ones K g cn h nodecell cellnid VR1 P) as (p & E1 & EG). unfold build_domain in EB. rewrite E1 in EB. cbn [bind] in EB. cbn [rk_ext rk_node alone] in E1.
  exists g, cn, h, nodecell, cellnid, nv, di. split; [exact P|]. cbv zeta. set (D1 := assembled _ _ _ _ _ _ _ _ _ _ _ _) in *.
  assert (SE : setup f32 dim 1 cells nodes ones npart0 epart = Ok {| se_domains := [D1]; se_comms := []; se_tc := [range (zlen cells)] |}).
  { apply (setup_alone f32 dim cells nodes ones npart0 epart _ D1 (ones_len nodes) E1).
    - cbn [pr_h]. destruct (sequential dim nodes ones cells (pm_mesh _ _ _ _ _ PM) (ones_len nodes) (pm_nonflat _ _ _ _ _ PM) g (bu_g _ _ _ _ _ _ _ _ _ _ _ P) [] []) as (h' & Eh & _ & _ & _ & Enn & _). pose proof (bu_h _ _ _ _ _ _ _ _ _ _ _ P) as Eh'. cbn [rk_ext rk_node alone] in Eh'. rewrite Eh in Eh'. injection Eh' as <-. exact Enn.
    - intros H. unfold Proofs_per2.ones, zeros_like in H. apply in_map_iff in H as (? & X & _). discriminate.
    - cbn [pr_p]. rewrite EG. destruct (hf_ghost _ _ _ _ _ _ _ _ (bu_hf _ _ _ _ _ _ _ _ _ _ _ P)) as (_ & LN & _). exact LN.
    - exact EB. }
  split; [exact SE|]. destruct (C68_parallel_setup f32 dim 1 cells nodes ones npart0 epart VM1 VS) as (st & Est & RP & CS & _). rewrite SE in Est. injection Est as <-. cbn [se_domains] in *. exact (rp_part _ _ _ _ _ _ _ RP 0 ltac:(lia)).
Qed.
(** the domain has the cells, the rows and the points of a domain of the mesh without periodic sides *)
Lemma built_rows : exists D D1, setup f32 dim 1 cells nodes labels npart0 epart = Ok {| se_domains := [D]; se_comms := []; se_tc := [range (zlen cells)] |} /\
    setup f32 dim 1 cells nodes ones npart0 epart = Ok {| se_domains := [D1]; se_comms := []; se_tc := [range (zlen cells)] |} /\ 
    dm_cellnodes D = dm_cellnodes D1 /\ dm_dim D = dm_dim D1 /\ dm_vertex D = dm_vertex D1 /\ dm_loctoglob D = dm_loctoglob D1 /\ dm_loctoglob D1 = range (zlen cells) /\ dm_nodeglob D = dm_nodeglob D1.
Proof.
  destruct twin_setup as (g1 & cn & h1 & nodecell & cellnid & nv1 & di1 & P1 & PA). cbv zeta in PA. destruct PA as (SE & PA).
  destruct (build_geometry_ok dim nodes labels cells (pm_mesh _ _ _ _ _ PM) (proj1 (pm_labels _ _ _ _ _ PM))) as (_ & g & Hg & _).
  destruct (sequential dim nodes labels cells (pm_mesh _ _ _ _ _ PM) (proj1 (pm_labels _ _ _ _ _ PM)) (pm_nonflat _ _ _ _ _ PM) g Hg [] []) as (h & Eh & _).
  destruct (tables f32 dim cells nodes labels npart0 epart PM VS g1 cn h1 nodecell cellnid nv1 di1 P1 PA g h Hg Eh) as (s' & EU & CH).
  destruct (per_setup f32 dim cells nodes labels npart0 epart PM VS g1 cn h1 nodecell cellnid nv1 di1 P1 PA g h Hg Eh s' CH EU) as (nv & di & ES & _).
  destruct (HS f32 dim cells nodes labels PM g1 cn h1 nodecell cellnid P1 g h Hg Eh) as (_ & _ & _ & _ & ELG & _).
  eexists _, _. split; [exact ES|]. split; [exact SE|]. cbn [perD assembled dm_cellnodes dm_dim dm_vertex dm_loctoglob dm_nodeglob alone rk_cell]. rewrite ELG, (hf_loctoglob _ _ _ _ _ _ _ _ (bu_hf _ _ _ _ _ _ _ _ _ _ _ P1)). auto 10.
Qed.
Notation per_st D := {| se_domains := [D]; se_comms := []; se_tc := [range (zlen cells)] |}.
(** saving does not read anything else *)
Lemma save_twin on order D D1 dt time niter miter values F : Permutation order (range 1) ->
  dm_cellnodes D = dm_cellnodes D1 -> dm_dim D = dm_dim D1 -> dm_vertex D = dm_vertex D1 ->
  save on order 1 (per_st D) dt time niter miter values F = save on order 1 (per_st D1) dt time niter miter values F.
Proof.
  intros PO E1 E2 E3. change (range 1) with [0] in PO. apply Permutation_sym, Permutation_length_1_inv in PO. subst order.
  unfold save. change (range 1) with [0]. cbn [mapM foldM se_domains]. change (get [D] 0) with (@Ok domain D). change (get [D1] 0) with (@Ok domain D1). cbn [bind]. unfold write_rank, check_value, grid_of. rewrite E1, E2, E3. reflexivity.
Qed.
Lemma passed_twin D D1 fld values : dm_vertex D = dm_vertex D1 -> dm_loctoglob D = dm_loctoglob D1 -> dm_nodeglob D = dm_nodeglob D1 -> passed 1 (per_st D) fld values -> passed 1 (per_st D1) fld values.
Proof.
  intros E3 E4 E5. assert (DO : forall r, 0 <= r < 1 -> domain_of [D] r = D /\ domain_of [D1] r = D1) by (intros r Hr; replace r with 0 by lia; split; reflexivity).
  destruct fld; intros (ws & E & L & V); exists ws; (split; [exact E|]); (split; [exact L|]); intros r Hr; specialize (V r Hr); cbn [se_domains] in *; destruct (DO r Hr) as (D0 & D0'); rewrite D0 in V; rewrite D0'; unfold iscell_of, gcell, isnode_of, gnode in *; cbv zeta in *; rewrite ?E3, ?E4, ?E5 in V; exact V.
Qed.
Lemma save_per : exists D, setup f32 dim 1 cells nodes labels npart0 epart = Ok (per_st D) /\ dm_loctoglob D = range (zlen cells) /\
  forall fld values order dt time niter miter F, passed 1 (per_st D) fld values -> Permutation order (range 1) ->
    exists F' rep, save (on_cells fld) order 1 (per_st D) dt time niter miter values F = Ok (F', rep) /\ saved dim 1 cells nodes fld miter F' /\
      largest cells fld (rp_max rep) /\ rp_niter rep = niter /\ rp_time rep = time /\ rp_dt rep = dt /\
      (1 < 1 -> fs_pvtu F miter = None -> indexed 1 fld miter F') /\ (1 = 1 -> forall m, fs_pvtu F' m = fs_pvtu F m) /\
      forall m, m <> miter -> fs_pvtu F' m = fs_pvtu F m /\ forall r, fs_vtu F' r m = fs_vtu F r m.
Proof.
  destruct built_rows as (D & D1 & E & E1 & R1 & R2 & R3 & R4 & R5 & R6). exists D. split; [exact E|]. split; [congruence|]. intros fld values order dt time niter miter F PS PO. rewrite (save_twin (on_cells fld) order D D1) by assumption.
  destruct (C91_save f32 dim 1 cells nodes ones npart0 epart VM1 VS) as (st & Est & SV). rewrite E1 in Est. injection Est as <-. apply SV; [|exact PO]. apply (passed_twin D D1 fld values R3 R4 R6 PS).
Qed.
End Per.
