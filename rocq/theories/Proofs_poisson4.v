(** * Proofs_poisson4: the linear system of one rank, in terms of the mesh. *)
From Coq Require Import Reals Lra Permutation Sorted.
From Verif Require Import Py PyLemmas Model_part Spec_part Model_label Model_conn Spec_conn Proofs_conn1 Proofs_conn2 Model_geom Spec_geom Proofs_geom1 Proofs_geom2 Proofs_geom3
  Model_halo Spec_halo Model_interp Spec_interp Proofs_interp4 Proofs_interp5 Proofs_interp6 Spec_lsq Proofs_lsq Properties_lsq Model_fvm Spec_fvm Proofs_fvm1 Proofs_fvm2 Properties_fvm Model_bc Spec_bc Spec_bc3 Proofs_label Proofs_bc Proofs_bc2 Proofs_bc3 Properties_bc3 Model_domain Spec_domain Proofs_domain1 Proofs_domain4
  Model_comm Model_parallel Spec_parallel Proofs_parallel1 Proofs_parallel6 Properties_parallel Model_run Spec_run Proofs_run1 Proofs_run2 Proofs_run3 Proofs_run4 Proofs_run5 Proofs_run6 Spec_run2 Model_run2 Proofs_run7 Proofs_run8 Proofs_run9 Proofs_run10 Proofs_run11 Proofs_run12 Proofs_run13 Proofs_run14 Proofs_run15 Spec_run3 Proofs_run16 Model_poisson Spec_poisson Proofs_poisson1 Proofs_poisson2 Proofs_poisson3.
From Verif Require Model_linsys Spec_linsys Properties_linsys Proofs_periodic Proofs_linsys1 Proofs_linsys5 Proofs_part2.
Open Scope Z_scope.

(** a row that does not occur *)
Lemma row_absent es g x : (forall e, In e es -> fst (fst e) <> g) -> Spec_linsys.row_sum es g x = Some 0%R.
Proof.
  induction es as [|((i, j), v) es IH]; intros H; [reflexivity|]. rewrite Proofs_linsys5.row_sum_cons. destruct (Z.eqb_spec i g) as [E|]; [exfalso; exact (H _ (or_introl eq_refl) E)|]. apply IH. intros e He. apply H. right. exact He.
Qed.

Section Ranks4.
Context (dim SIZE : Z) (cells : list (list Z)) (nodes : list pt) (labels epart : list Z) (Ds : list domain).
Hypothesis VM : valid_mesh dim cells nodes labels.
Hypothesis PL : dim = 2 -> planar nodes.
Hypothesis RP : represents dim SIZE cells nodes labels epart Ds.
Hypothesis SC : star_connected dim cells.
Hypothesis SP : spanned dim cells nodes.
Hypothesis OW : forall c, iscell cells c -> 0 <= owner epart c < SIZE.
Notation Dr := (domain_of Ds).
Hypothesis CS : forall r, 0 <= r < SIZE -> consistent dim (Dr r).
Context (bc : list (loc * bctype)) (vs : list (loc * bcval)).
Hypothesis BV : bc_valid dim bc vs.
Notation PAr := (rp_part _ _ _ _ _ _ _ RP).
Notation gc r := (gcell (Dr r)).
Notation gs := (zlen cells).

(** what the system of rank r is *)
Record system_ok (r : Z) (v : variable) (B : Model_linsys.bord) (n : Z) (es : list Model_linsys.entry) (rhs glob : list (option R)) : Prop := {
  so_bord : Model_linsys.pbord (dom_bc (Dr r)) v = Ok B;
  so_data : Spec_linsys.boundary_data (dom_bc (Dr r)) bc vs B;
  so_size : Model_linsys.matrix_size dim (sys_of (Dr r) v) (lists_of (Dr r) v) = Ok n;
  so_entries : Model_linsys.assembly dim (sys_of (Dr r) v) (lists_of (Dr r) v) = Ok es;
  so_local : Model_linsys.local_rhs dim (sys_of (Dr r) v) (lists_of (Dr r) v) B = Ok rhs;
  so_global : Model_linsys.global_rhs dim gs (sys_of (Dr r) v) (lists_of (Dr r) v) B = Ok glob;
  so_lens : zlen rhs = zlen (dm_loctoglob (Dr r)) /\ zlen glob = gs;
  so_same : forall c, iscell_of (Dr r) c -> nthZ None glob (gc r c) = nthZ None rhs c;
  so_other : forall c, iscell cells c -> owner epart c <> r -> nthZ None glob c = Some 0%R /\ forall x, Spec_linsys.row_sum es c x = Some 0%R;
  so_range : forall e, In e es -> iscell cells (fst (fst e)) /\ iscell cells (snd (fst e));
  so_flux : forall X N c, node_values dim cells nodes labels bc vs X N -> iscell_of (Dr r) c ->
    exists a b Q, Spec_linsys.row_sum es (gc r c) X = Some a /\ nthZ None rhs c = Some b /\
      (forall F, In F (facets (cell cells (gc r c))) -> gradient_flux dim cells nodes labels bc vs X N (gc r c) F (Q F)) /\
      (a - b = / measure_of cells nodes (gc r c) * rsum (map Q (facets (cell cells (gc r c)))))%R }.

(** the values of the faces of a cell, as a function of the facets *)
Lemma facets_function r c (y : Z -> R) : 0 <= r < SIZE -> iscell_of (Dr r) c -> exists Q : list Z -> R, forall f, In f (nthZ [] (dm_faceid (Dr r)) c) -> y f = Q (fset (Dr r) f).
Proof.
  intros Hr Hc. exists (fun F => y (hd 0 (filter (fun f => if list_eq_dec Z.eq_dec (fset (Dr r) f) F then true else false) (nthZ [] (dm_faceid (Dr r)) c)))). intros f Hf. f_equal.
  set (l := filter _ _). assert (Hl : In f l) by (apply filter_In; split; [exact Hf|]; destruct (list_eq_dec Z.eq_dec (fset (Dr r) f) (fset (Dr r) f)); [reflexivity | contradiction]).
  destruct l as [|f' q] eqn:El; [destruct Hl|]. cbn [hd]. assert (Hf' : In f' (f' :: q)) by (left; reflexivity). rewrite <- El in Hf'. apply filter_In in Hf' as (Hf' & E). destruct (list_eq_dec Z.eq_dec (fset (Dr r) f') (fset (Dr r) f)) as [E'|]; [|discriminate E].
  pose proof (PAr r Hr) as PA. apply (fset_inj dim cells nodes labels epart r (Dr r) PA); [| |symmetry; exact E'].
  - apply (faces_lists dim cells nodes labels epart r (Dr r) PA (CS r Hr) c f Hc Hf).
  - apply (faces_lists dim cells nodes labels epart r (Dr r) PA (CS r Hr) c f' Hc Hf').
Qed.
Lemma cells_range r c : 0 <= r < SIZE -> iscell_of (Dr r) c -> 0 <= gc r c < gs.
Proof. intros Hr Hc. apply (gcell_owned dim cells nodes labels epart r (Dr r) (PAr r Hr) c Hc). Qed.

Lemma system_rank r w v : 0 <= r < SIZE -> vfull (dom_bc (Dr r)) bc vs w v -> exists B n es rhs glob, system_ok r v B n es rhs glob.
Proof.
  intros Hr FV. set (D := Dr r) in *. pose proof (PAr r Hr) as PA. pose proof (CS r Hr) as CSr. fold D in PA, CSr. destruct (pa_sizes _ _ _ _ _ _ _ PA) as (_ & S2 & S3 & SF & SC' & SH & SV & _).
  set (S := sys_of D v). set (L := lists_of D v).
  assert (DB : forall f, In f (va_dirichletfaces v) -> on_boundary D f). { intros f Hf. apply (in_dir_face dim cells nodes labels epart r D PA CSr bc vs w v FV f) in Hf as (If & l & Hl & En). apply (boundary_listed dim SIZE cells nodes labels epart {| se_domains := Ds; se_comms := []; se_tc := [] |} VM RP CS r f Hr If). fold D. exact (dirichlet_label dim cells nodes labels epart r D VM PL PA CSr bc vs BV f l Hl En). }
  destruct (cs_system _ _ CSr (va_BCdirichlet v) (va_dirichletfaces v) DB) as (WY & RG & WB). change (dom_sys D (va_BCdirichlet v)) with S in WY, RG, WB. change (dom_syslists D (va_dirichletfaces v)) with L in WY, RG, WB.
  destruct (full_bord (dom_bc D) bc vs (cs_bc _ _ CSr) (settings_ok dim cells nodes labels epart r D VM PA CSr bc vs BV) w v FV) as (B & EB & BD). pose proof (Properties_linsys.size_ok dim S L _ _ WY) as EN. set (n := _ + _) in EN.
  assert (NB : Spec_linsys.nbcells S = zlen (dm_loctoglob D)) by (unfold Spec_linsys.nbcells; cbn [S sys_of dom_sys Model_linsys.sy_N dom_node nd_centerc]; lia).
  assert (WBB : Spec_linsys.wf_bord S L B). { destruct BD as (B1 & B2 & _). cbn [dom_bc bd_name bd_nbnodes] in B1, B2. destruct B as [pn pf]. apply WB; [exact B2|]. cbn [Model_linsys.pb_face] in B1. rewrite B1. exact (proj1 (names_len dim cells nodes labels epart r D PA CSr)). }
  destruct (Properties_linsys.C39_operator dim S L _ _ B WY WBB RG) as (es & rhs & EA & ER & LR & OP).
  assert (GL : forall c, 0 <= c < Spec_linsys.nbcells S -> Spec_linsys.global_cell S c = gcell D c) by (intros c Hc; unfold Spec_linsys.global_cell, gcell; cbn [S sys_of dom_sys Model_linsys.sy_l2g]; apply nthZ_indep; lia).
  destruct (Properties_linsys.C40_local_global dim S L _ _ B gs WY WBB (Spec_linsys.rg_l2g _ _ _ RG)) as (rhs' & glob & ER' & EG & _ & LG & SAME & OTH); [| apply zlen_nonneg|].
  { intros g Hg. change (Model_linsys.sy_l2g S) with (dm_loctoglob D) in Hg. rewrite (pa_cells _ _ _ _ _ _ _ PA) in Hg. apply Proofs_part2.owned_In in Hg as (Hg & _). exact Hg. }
  rewrite ER in ER'. injection ER' as <-. exists B, n, es, rhs, glob. constructor; fold D; fold S; fold L.
  - exact EB.
  - exact BD.
  - exact EN.
  - exact EA.
  - exact ER.
  - exact EG.
  - split; [lia | exact LG].
  - intros c Hc. unfold iscell_of in Hc. rewrite <- (SAME c) by lia. rewrite GL by lia. reflexivity.
  - intros c Hc Ho. assert (NI : ~ In c (dm_loctoglob D)) by (rewrite (pa_cells _ _ _ _ _ _ _ PA); intros Q; apply Proofs_part2.owned_In in Q as (_ & Q); exact (Ho Q)). split; [apply (OTH c Hc); exact NI|]. intros x.
    destruct (Properties_linsys.assembly_ok dim S L _ _ WY) as (es' & (_ & AG) & EA'). specialize (AG (Properties_linsys.regular_no_stale dim S L RG)). subst es'. rewrite EA in EA'. injection EA' as ->. rewrite Proofs_linsys5.row_sum_app, Proofs_linsys5.row_sum_zeros.
    rewrite row_absent; [cbn; f_equal; ring|]. intros ((i, j), y) He E. cbn [fst] in E. subst i. destruct (Properties_linsys.entries_range dim S L _ _ WY c j) as ((i & Hi & Ei) & _); [apply in_map_iff; exists (c, j, y); auto|]. apply NI. rewrite Ei. unfold Spec_linsys.global_cell. apply nthZ_In. cbn [S sys_of dom_sys Model_linsys.sy_l2g]. lia.
  - intros ((i, j), y) He. cbn [fst snd].
    destruct (Properties_linsys.assembly_ok dim S L _ _ WY) as (es' & (_ & AG) & EA'). specialize (AG (Properties_linsys.regular_no_stale dim S L RG)). subst es'. rewrite EA in EA'. injection EA' as ->. apply in_app_or in He as [He|He].
    + destruct (Properties_linsys.entries_range dim S L _ _ WY i j) as ((a & Ha & Ei) & K); [apply in_map_iff; exists (i, j, y); auto|].
      assert (Q : forall a, 0 <= a < Spec_linsys.nbcells S -> iscell cells (Spec_linsys.global_cell S a)) by (intros a' Ha'; rewrite GL by exact Ha'; apply (cells_range r a' Hr); unfold iscell_of; fold D; lia).
      split; [rewrite Ei; apply Q; exact Ha|]. destruct K as [(b & Hb & Ej)|(h & Hh & Ej)]; [rewrite Ej; apply Q; exact Hb|].
      rewrite Ej. apply (proj1 (proj2 (pa_halos _ _ _ _ _ _ _ PA)) _). exists h. split; [unfold ishalo_of; rewrite <- SH; exact Hh|]. unfold Spec_linsys.global_halo, ghalo. cbn [S sys_of dom_sys Model_linsys.sy_hext]. apply nthZ_indep. split; [lia|]. apply (Spec_linsys.wy_hext _ _ _ _ _ WY). exact Hh.
    + assert (NE : exists a, iscell cells a). { change (Model_linsys.sl_halo L) with (where_eq (dm_name D) 10) in He. destruct (where_eq (dm_name D) 10) as [|f q] eqn:EH; [destruct (dim =? 2); destruct He|]. assert (Hf : In f (Model_linsys.sl_halo L)) by (change (In f (where_eq (dm_name D) 10)); rewrite EH; left; reflexivity).
        apply (in_halo_face dim cells nodes labels epart r D PA CSr v f) in Hf as (If & _). destruct (pa_faces _ _ _ _ _ _ _ PA f If) as (a & F & (Ha & _) & _). exists a. exact Ha. }
      apply repeat_spec in He. injection He as -> -> _. destruct NE as (a & Ha). unfold iscell in *. lia.
  - intros X N c NV Hc. destruct (field_seen dim SIZE cells nodes labels epart Ds RP CS r X Hr) as (W & SE & SA). specialize (SA (va_BCdirichlet v)). fold D in SA. change (dom_sys D (va_BCdirichlet v)) with S in SA.
    assert (HWn : forall k, isnode_of D k -> exists wn y, centertovertex dim (dom_node D) (dm_nodevar D) W = Ok wn /\ nthZ None wn k = Some y /\ nodal_value dim cells nodes labels [] [] X (gnode D k) y) by (intros k Hk; exact (node_value_ok dim SIZE cells nodes labels epart Ds VM PL RP SC OW CS [] [] SP r X W k Hr SE Hk)).
    (* a node of the cell *)
    destruct (pa_cell _ _ _ _ _ _ _ PA c Hc) as (PC & _ & VO & VP). pose proof (gcell_owned dim cells nodes labels epart r D PA c Hc) as (GC & GO).
    assert (HN : exists k, isnode_of D k). { pose proof (wm_rows _ _ _ (vm_mesh _ _ _ _ VM) (cell cells (gcell D c)) (nthZ_In _ _ _ GC)) as QQ. destruct (nthZ [] (dm_cellnodes D) c) as [|k q] eqn:EQ.
      - exfalso. cbn [map] in PC. apply Permutation_nil in PC. rewrite PC in QQ. destruct QQ as (QQ & _). change (zlen (@nil Z)) with 0 in QQ. pose proof (wm_dim _ _ _ (vm_mesh _ _ _ _ VM)). lia.
      - exists k. pose proof (proj1 (pa_numbers _ _ _ _ _ _ _ PA) c Hc) as NB'. rewrite EQ in NB'. inversion NB'; assumption. }
    destruct HN as (k0 & Hk0). destruct (HWn k0 Hk0) as (wn & _ & Ewn & _ & _).
    assert (HW' : forall k, isnode_of D k -> exists y, nthZ None wn k = Some y /\ nodal_value dim cells nodes labels [] [] X (gnode D k) y) by (intros k Hk; destruct (HWn k Hk) as (wn' & y & E1 & E2 & E3); rewrite Ewn in E1; injection E1 as <-; exists y; auto).
    assert (HN' : forall k, isnode_of D k -> node_value dim cells nodes labels bc vs X (gnode D k) (N (gnode D k))) by (intros k Hk; destruct (proj1 (proj2 (pa_nodes _ _ _ _ _ _ _ PA) (gnode D k)) (nthZ_In _ _ _ Hk)) as (c' & Hc' & _ & Hg); exact (NV c' _ Hc' Hg)).
    destruct (OP X W wn SA) as (flux & HF & HR).
    + pose proof (se_wf _ _ _ _ _ _ _ _ _ _ _ SE) as SW. unfold Spec_linsys.nbcells, Spec_linsys.nbhalos. cbn [S sys_of dom_sys Model_linsys.sy_N dom_node nd_centerc nd_centerh]. exact SW.
    + exact Ewn.
    + exact (nodes_finite_ok dim cells nodes labels epart r D VM PA CSr v X wn HW').
    + specialize (HR c ltac:(unfold iscell_of in Hc; lia)). unfold Spec_linsys.residual in HR. rewrite GL in HR by (unfold iscell_of in Hc; lia).
      destruct (Spec_linsys.row_sum es (gcell D c) X) as [a|]; [|discriminate HR]. destruct (nthZ None rhs c) as [b|]; [|discriminate HR]. injection HR as HR.
      destruct (facets_function r c (leaves (dom_fv D) (system_flux D v flux) c) Hr Hc) as (Q & HQ). fold D in HQ. exists a, b, Q. split; [reflexivity|]. split; [reflexivity|]. split.
      * intros F HFc. apply (in_row dim cells nodes labels epart r D VM PA CSr c F Hc) in HFc as (f & Hf & ->). rewrite <- (HQ f Hf).
        apply (gradient_face dim cells nodes labels epart r D VM PL PA CSr bc vs BV w v FV B BD X N wn HN' HW' flux); [|exact Hc | exact Hf]. intros f' Hf'. exact (proj1 (HF f' Hf')).
      * rewrite HR. change (Model_linsys.sy_vol S) with (dm_volume D). rewrite VO. unfold measure_of. f_equal. unfold S, L. rewrite (leaving_faces dim cells nodes labels epart r D VM PL PA CSr bc vs BV w v FV flux c).
        apply (sum_faces dim cells nodes labels epart r D VM PA CSr (system_flux D v flux) Q c Hc HQ).
Qed.
End Ranks4.
