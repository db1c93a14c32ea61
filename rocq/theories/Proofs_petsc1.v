(** * Proofs_petsc1: the rows of the triplets of a rank, and the counts announced to PETSc (C89). *)
From Coq Require Import Reals Lra Permutation Sorted.
From Verif Require Import Py PyLemmas Model_part Spec_part Model_label Model_conn Spec_conn Proofs_conn1 Proofs_conn2 Model_geom Spec_geom Proofs_geom1 Proofs_geom2 Proofs_geom3
  Model_halo Spec_halo Model_interp Spec_interp Proofs_interp4 Proofs_interp5 Proofs_interp6 Spec_lsq Proofs_lsq Properties_lsq Model_fvm Spec_fvm Proofs_fvm1 Proofs_fvm2 Properties_fvm Model_bc Spec_bc Spec_bc3 Proofs_label Proofs_bc Proofs_bc2 Proofs_bc3 Properties_bc3 Model_domain Spec_domain Proofs_domain1 Proofs_domain4
  Model_comm Model_parallel Spec_parallel Proofs_parallel1 Proofs_parallel6 Properties_parallel Model_run Spec_run Proofs_run1 Proofs_run2 Proofs_run3 Proofs_run4 Proofs_run5 Proofs_run6 Spec_run2 Model_run2 Proofs_run7 Proofs_run8 Proofs_run9 Proofs_run10 Proofs_run11 Proofs_run12 Proofs_run13 Proofs_run14 Proofs_run15 Spec_run3 Proofs_run16 Model_poisson Spec_poisson Proofs_poisson1 Proofs_poisson2 Proofs_poisson3 Proofs_poisson4 Model_petsc Spec_petsc.
From Verif Require Model_linsys Spec_linsys Properties_linsys Proofs_periodic Proofs_linsys1 Proofs_linsys5 Proofs_part2.
Open Scope Z_scope.

(** ** counting *)
Lemma mapM_short {A} (l : list A) il : (forall i, In i il -> 0 <= i) -> (exists i, In i il /\ zlen l <= i) -> mapM (fun i => get l i) il = Err IndexError.
Proof.
  induction il as [|i il IH]; intros H0 (k & Hk & Lk); [destruct Hk|]. cbn [mapM]. pose proof (H0 i (or_introl eq_refl)) as Hi. destruct (Z_lt_dec i (zlen l)) as [Li|Li].
  - destruct l as [|a l]; [change (zlen (@nil A)) with 0 in Li; lia|]. rewrite (get_nthZ a) by lia. cbn [bind]. rewrite IH; [reflexivity | intros j Hj; apply H0; right; exact Hj|]. exists k. split; [|exact Lk]. destruct Hk as [<-|Hk]; [lia | exact Hk].
  - unfold get. replace (i <? 0) with false by lia. rewrite (proj2 (nth_error_None l (Z.to_nat i))) by (unfold zlen in Li; lia). destruct (i <? 0); reflexivity.
Qed.
Lemma mapM_some_err {A B} (f : A -> res B) e l : (forall x, In x l -> (exists y, f x = Ok y) \/ f x = Err e) -> (exists x, In x l /\ f x = Err e) -> mapM f l = Err e.
Proof.
  induction l as [|x l IH]; intros H (k & Hk & Ek); [destruct Hk|]. cbn [mapM]. destruct (H x (or_introl eq_refl)) as [(y & Ey)|Ex]; [|rewrite Ex; reflexivity]. rewrite Ey. cbn [bind]. rewrite IH; [reflexivity | intros z Hz; apply H; right; exact Hz|]. exists k. split; [|exact Ek]. destruct Hk as [->|Hk]; [congruence | exact Hk].
Qed.
Lemma count_rows es c : zlen (filter (Z.eqb c) (map (fun e : Model_linsys.entry => fst (fst e)) es)) = entries_in es c.
Proof. unfold entries_in. induction es as [|e es IH]; [reflexivity|]. cbn [map filter]. rewrite (Z.eqb_sym c). destruct (fst (fst e) =? c); rewrite ?zlen_cons, IH; reflexivity. Qed.
Lemma entries_none es c : (forall e, In e es -> fst (fst e) <> c) -> entries_in es c = 0.
Proof. unfold entries_in. induction es as [|e es IH]; intros H; [reflexivity|]. cbn [filter]. rewrite (proj2 (Z.eqb_neq _ _) (H e (or_introl eq_refl))). apply IH. intros x Hx. apply H. right. exact Hx. Qed.
Lemma entries_app a b c : entries_in (a ++ b) c = entries_in a c + entries_in b c.
Proof. unfold entries_in. rewrite filter_app, zlen_app. reflexivity. Qed.
Lemma counts_ok D es own : dm_loctoglob D = own -> zlen (dm_center D) = zlen own -> forall us, np_unique (map (fun e : Model_linsys.entry => fst (fst e)) es) = us -> zlen own <= zlen us ->
  exists k, petsc_counts D es = Ok k /\ zlen k = zlen own /\ forall i, 0 <= i < zlen own -> nthZ 0 k i = entries_in es (nthZ (-1) us i).
Proof.
  intros EO EC us EU LE. unfold petsc_counts. cbv zeta. rewrite EC. match goal with |- context [np_unique ?m] => change m with (map (fun e : Model_linsys.entry => fst (fst e)) es) end. rewrite EU. pose proof (zlen_nonneg own) as NN. rewrite (mapM_ok _ (fun i => entries_in es (nthZ (-1) us i))).
  - eexists. split; [reflexivity|]. split; [rewrite zlen_map, zlen_range; auto|]. intros i Hi. rewrite (nthZ_map _ 0) by (rewrite zlen_range; lia). rewrite nthZ_range by lia. reflexivity.
  - intros i Hi. apply in_range in Hi. rewrite (get_nthZ 0) by (rewrite zlen_map; lia). f_equal. rewrite (nthZ_map _ (-1)) by lia. apply count_rows.
Qed.
(** NNZ_loc[loctoglob[i]] = counts[i] *)
Lemma nnz_written gs D es k : 0 <= gs -> NoDup (dm_loctoglob D) -> (forall g, In g (dm_loctoglob D) -> 0 <= g < gs) -> zlen (dm_center D) = zlen (dm_loctoglob D) -> petsc_counts D es = Ok k -> zlen k = zlen (dm_loctoglob D) ->
  exists b, petsc_nnz_rank gs D es = Ok b /\ zlen b = gs /\ (forall i, iscell_of D i -> nthZ 0 b (gcell D i) = nthZ 0 k i) /\ forall g, 0 <= g < gs -> ~ In g (dm_loctoglob D) -> nthZ 0 b g = 0.
Proof.
  intros GN ND RG LC EK LK. unfold petsc_nnz_rank. rewrite EK. cbn [bind]. rewrite LC. set (n := zlen (dm_loctoglob D)) in *.
  destruct (foldM_range_inv (fun m b => zlen b = gs /\ (forall i, 0 <= i < m -> nthZ 0 b (gcell D i) = nthZ 0 k i) /\ forall g, 0 <= g < gs -> ~ In g (dm_loctoglob D) -> nthZ 0 b g = 0) (fun b i => do g <- get (dm_loctoglob D) i; do x <- get k i; set b g x) n (zeros_like 0 gs) (zlen_nonneg _)) as (b & E & H1 & H2 & H3).
  - split; [apply zlen_zeros_like; exact GN|]. split; [intros i Hi; lia|]. intros g Hg _. apply nthZ_zeros_like. exact Hg.
  - intros i b Hi (L & H1 & H2). rewrite (get_nthZ (-1)) by exact Hi. cbn [bind]. rewrite (get_nthZ 0) by lia. cbn [bind]. assert (Hg : In (gcell D i) (dm_loctoglob D)) by (apply nthZ_In; exact Hi). pose proof (RG _ Hg) as Rg. change (nthZ (-1) (dm_loctoglob D) i) with (gcell D i). rewrite set_upd by lia. eexists. split; [reflexivity|]. split; [rewrite zlen_upd; exact L|]. split.
    + intros j Hj. destruct (Z.eq_dec j i) as [->|Nj]; [apply nthZ_upd_eq; lia|]. assert (Hgj : In (gcell D j) (dm_loctoglob D)) by (apply nthZ_In; lia). pose proof (RG _ Hgj). rewrite nthZ_upd_neq; [apply H1; lia | lia | lia |]. intros Q. apply Nj. symmetry. apply (nthZ_inj_NoDup (-1) (dm_loctoglob D)); auto; unfold n in *; lia.
    + intros g Hg' NI. rewrite nthZ_upd_neq; [apply H2; assumption | lia | lia | intros Q; apply NI; rewrite <- Q; exact Hg].
  - exists b. split; [exact E|]. split; [exact H1|]. split; [exact H2 | exact H3].
Qed.

Section RankN.
Context (dim : Z) (cells : list (list Z)) (nodes : list pt) (labels epart : list Z) (r : Z) (D : domain).
Hypothesis VM : valid_mesh dim cells nodes labels.
Hypothesis PL : dim = 2 -> planar nodes.
Hypothesis PA : part_of dim cells nodes labels epart r D.
Hypothesis CS : consistent dim D.
Context (bc : list (loc * bctype)) (vs : list (loc * bcval)).
Hypothesis BV : bc_valid dim bc vs.
Context (w : list R) (v : variable).
Hypothesis FV : vfull (dom_bc D) bc vs w v.
Context (B : Model_linsys.bord).
Hypothesis BD : Spec_linsys.boundary_data (dom_bc D) bc vs B.
Notation gc := (gcell D).
Notation S := (sys_of D v).
Notation L := (lists_of D v).

Lemma glob_cell a : iscell_of D a -> Spec_linsys.global_cell S a = gc a.
Proof. intros Ha. unfold Spec_linsys.global_cell, gcell. cbn [sys_of dom_sys Model_linsys.sy_l2g]. apply nthZ_indep. exact Ha. Qed.
Lemma row_left l r' per f e : In e (Proofs_linsys1.nodes_entries dim S l r' per f) -> fst (fst e) = Spec_linsys.global_cell S l \/ exists x, r' = Some x /\ fst (fst e) = Spec_linsys.global_cell S x.
Proof.
  intros He. apply in_flat_map in He as (pn & _ & He). unfold Proofs_linsys1.node_entries in He. destruct (Proofs_linsys1.is_dir _ _); [destruct He|]. apply in_flat_map in He as (pc & _ & He). unfold Proofs_linsys1.pair_entries in He. destruct He as [<-|He]; [left; reflexivity|]. destruct r' as [x|]; [|destruct He]. destruct He as [<-|[]]. right. exists x. auto.
Qed.
(** a face between ranks gives two entries in the row of its cell *)
Lemma halo_row f c : In f (Model_linsys.sl_halo L) -> nthZ [] (dm_cellid D) f = [c; -10] -> iscell_of D c ->
  exists e e', In e (Proofs_linsys1.halo_entries dim S f) /\ In e' (Proofs_linsys1.halo_entries dim S f) /\ fst e = (gc c, gc c) /\ fst e' = (gc c, Spec_linsys.global_halo S (nthZ 0 (dm_halofid D) f)).
Proof.
  intros _ row Hc. assert (LL : Spec_linsys.left_cell S f = c) by (unfold Spec_linsys.left_cell; cbn [sys_of dom_sys Model_linsys.sy_G dom_face fd_cellid]; rewrite row; reflexivity). unfold Proofs_linsys1.halo_entries. cbv zeta. rewrite LL, (glob_cell c Hc). destruct (dim =? 2).
  - eexists. eexists. split; [apply in_or_app; left; left; reflexivity|]. split; [apply in_or_app; left; right; left; reflexivity|]. split; reflexivity.
  - eexists. eexists. split; [apply in_or_app; right; left; reflexivity|]. split; [apply in_or_app; right; right; left; reflexivity|]. split; reflexivity.
Qed.
(** the rows of the triplets are those of the attached cells *)
Lemma row_attached c : iscell_of D c -> (exists e, In e (Proofs_linsys1.all_entries dim S L) /\ fst (fst e) = gc c) <-> attached dim cells nodes labels bc vs (gc c).
Proof.
  intros Hc. pose proof (gcell_owned dim cells nodes labels epart r D PA c Hc) as (GC & _). split.
  - intros (e & He & Ee). unfold Proofs_linsys1.all_entries in He. apply in_app_or in He as [He|He]; [|apply in_app_or in He as [He|He]]; apply in_flat_map in He as (f & Hf & He).
    + apply (in_inner_face dim cells nodes labels epart r D VM PA CS v f) in Hf as (If & Nf). destruct (pa_faces _ _ _ _ _ _ _ PA f If) as (c0 & F & HF & _ & GF). destruct (pa_kinds _ _ _ _ _ _ _ PA f c0 F HF GF) as [a b Ia Ib two sd row name | a Ia one row name label | a Ia halo other sd row name]; [|lia|lia].
      assert (Q : gc c = gc a \/ gc c = gc b).
      { assert (LR : Spec_linsys.left_cell S f = a /\ Spec_linsys.right_cell S f = b) by (unfold Spec_linsys.left_cell, Spec_linsys.right_cell; cbn [sys_of dom_sys Model_linsys.sy_G dom_face fd_cellid]; rewrite row; split; reflexivity). destruct LR as (E1 & E2). unfold Proofs_linsys1.inner_entries in He. cbv zeta in He. rewrite E1, E2 in He.
        apply in_app_or in He as [He|He]; [destruct He as [<-|[]]; cbn [fst] in Ee; rewrite glob_cell in Ee by assumption; auto|]. apply in_app_or in He as [He|He].
        - apply row_left in He as [He|(x & Ex & He)]; [|injection Ex as <-]; rewrite glob_cell in He by assumption; [left | right]; congruence.
        - destruct He as [<-|[<-|[<-|[]]]]; cbn [fst] in Ee; rewrite glob_cell in Ee by assumption; auto. }
      assert (HC : has_facet dim cells (gc c) F) by (apply sd; exact Q). exists F. split; [apply (facets_iff dim cells nodes (vm_mesh _ _ _ _ VM) (gc c) F GC); exact HC|]. left. assert (NE : gc a <> gc b) by (intros E; apply two; exact (gcell_inj dim cells nodes labels epart r D PA a b Ia Ib E)).
      intros BN. apply (proj1 (beside_none dim cells nodes (vm_mesh _ _ _ _ VM) (vm_proper _ _ _ _ VM) (gc c) F HC)) in BN. destruct BN as (_ & BN). destruct Q as [Q|Q]; [apply NE; rewrite <- Q; symmetry; apply BN, sd; auto | apply NE; rewrite <- Q; apply BN, sd; auto].
    + apply (in_halo_face dim cells nodes labels epart r D PA CS v f) in Hf as (If & Nf). destruct (pa_faces _ _ _ _ _ _ _ PA f If) as (c0 & F & HF & _ & GF). pose proof (wm_dim _ _ _ (vm_mesh _ _ _ _ VM)) as Hd. destruct (pa_kinds _ _ _ _ _ _ _ PA f c0 F HF GF) as [a b Ia Ib two sd row name | a Ia one row name label | a Ia halo other sd row name]; [lia|lia|].
      assert (LL : Spec_linsys.left_cell S f = a) by (unfold Spec_linsys.left_cell; cbn [sys_of dom_sys Model_linsys.sy_G dom_face fd_cellid]; rewrite row; reflexivity).
      assert (Q : gc c = gc a).
      { unfold Proofs_linsys1.halo_entries in He. cbv zeta in He. rewrite LL in He. rewrite <- (glob_cell a Ia), <- Ee. destruct (dim =? 2); apply in_app_or in He as [He|He]; try (apply row_left in He as [He|(x & Ex & He)]; [exact He | discriminate Ex]); destruct He as [<-|[<-|[]]]; reflexivity. }
      assert (HC : has_facet dim cells (gc c) F) by (apply sd; auto). exists F. split; [apply (facets_iff dim cells nodes (vm_mesh _ _ _ _ VM) (gc c) F GC); exact HC|]. left. intros BN. apply (proj1 (beside_none dim cells nodes (vm_mesh _ _ _ _ VM) (vm_proper _ _ _ _ VM) (gc c) F HC)) in BN. destruct BN as (_ & BN). set (h := ghalo D (nthZ 0 (dm_halofid D) f)) in *. assert (EH : h = gc c) by (apply BN, sd; auto). apply other. rewrite EH. exact (proj2 (gcell_owned dim cells nodes labels epart r D PA c Hc)).
    + pose proof Hf as Hf0. apply (in_dir_face dim cells nodes labels epart r D PA CS bc vs w v FV f) in Hf as (If & l & Hl & En). pose proof (dirichlet_label dim cells nodes labels epart r D VM PL PA CS bc vs BV f l Hl En) as NR. pose proof (wm_dim _ _ _ (vm_mesh _ _ _ _ VM)) as Hd.
      destruct (pa_faces _ _ _ _ _ _ _ PA f If) as (c0 & F & HF & _ & GF). destruct (pa_kinds _ _ _ _ _ _ _ PA f c0 F HF GF) as [a b Ia Ib two sd row name | a Ia one row name label | a Ia halo other sd row name]; [lia| |lia].
      assert (LL : Spec_linsys.left_cell S f = a) by (unfold Spec_linsys.left_cell; cbn [sys_of dom_sys Model_linsys.sy_G dom_face fd_cellid]; rewrite row; reflexivity).
      assert (Q : gc c = gc a) by (unfold Proofs_linsys1.dir_entries in He; cbv zeta in He; rewrite LL in He; rewrite <- (glob_cell a Ia), <- Ee; destruct He as [<-|[<-|[]]]; reflexivity).
      assert (HC : has_facet dim cells (gc c) F) by (rewrite Q; exact (proj1 one)). exists F. split; [apply (facets_iff dim cells nodes (vm_mesh _ _ _ _ VM) (gc c) F GC); exact HC|]. right.
      destruct (face_cases dim cells nodes labels epart r D VM PA CS bc vs BV w v FV B BD f If NR) as [(_ & E)|(N & _)]; [|contradiction]. rewrite (fset_eq dim cells D f F c0 HF GF) in E. rewrite E. discriminate.
  - intros (F & HF & HA). apply (in_row dim cells nodes labels epart r D VM PA CS c F Hc) in HF as (f & Hf & ->). destruct (face_view dim cells nodes labels epart r D VM PA CS c f Hc Hf) as (If & FC & HG & VW). unfold Proofs_linsys1.all_entries.
    destruct VW as [(d & Hdd & Ndc & name & BS & _ & R) | [(name & row & one & BS & En) | (name & row & Hh & BS & En)]].
    + assert (Hin : In f (Model_linsys.sl_inner L)) by (apply (in_inner_face dim cells nodes labels epart r D VM PA CS v); auto). assert (LR : Spec_linsys.left_cell S f = c \/ Spec_linsys.right_cell S f = c) by (unfold Spec_linsys.left_cell, Spec_linsys.right_cell; cbn [sys_of dom_sys Model_linsys.sy_G dom_face fd_cellid]; destruct R as [(row & _)|(row & _)]; rewrite row; auto).
      destruct LR as [E|E].
      * eexists. split; [apply in_or_app; left; apply in_flat_map; exists f; split; [exact Hin|]; unfold Proofs_linsys1.inner_entries; cbv zeta; apply in_or_app; left; left; reflexivity|]. cbn [fst]. rewrite E. apply glob_cell. exact Hc.
      * eexists. split; [apply in_or_app; left; apply in_flat_map; exists f; split; [exact Hin|]; unfold Proofs_linsys1.inner_entries; cbv zeta; apply in_or_app; right; apply in_or_app; right; right; left; reflexivity|]. cbn [fst]. rewrite E. apply glob_cell. exact Hc.
    + destruct HA as [HA|HA]; [contradiction|]. destruct (face_cases dim cells nodes labels epart r D VM PA CS bc vs BV w v FV B BD f If name) as [(Hdir & _)|(_ & E)]; [|contradiction].
      eexists. split; [apply in_or_app; right; apply in_or_app; right; apply in_flat_map; exists f; split; [exact Hdir|]; unfold Proofs_linsys1.dir_entries; cbv zeta; left; reflexivity|]. cbn [fst]. unfold Spec_linsys.left_cell. cbn [sys_of dom_sys Model_linsys.sy_G dom_face fd_cellid]. rewrite row. apply (glob_cell c Hc).
    + assert (Hin : In f (Model_linsys.sl_halo L)) by (apply (in_halo_face dim cells nodes labels epart r D PA CS v); auto).
      destruct (halo_row f c Hin row Hc) as (e & _ & He & _ & Ee & _). exists e. split; [|rewrite Ee; reflexivity]. apply in_or_app. right. apply in_or_app. left. apply in_flat_map. exists f. auto.
Qed.

Hypothesis DB : forall f, In f (va_dirichletfaces v) -> on_boundary D f.
Notation pad := (if dim =? 2 then zlen (where_eq (dm_name D) 10) else 0).
(** the triplets of the rank: the rows of the attached cells, and in 2D one (0, 0, 0) per face between ranks *)
Lemma triplets_ok : exists es, Model_linsys.assembly dim S L = Ok es /\
  (forall c, entries_in es c = entries_in (Proofs_linsys1.all_entries dim S L) c + if c =? 0 then pad else 0) /\
  (forall x, In x (map (fun e : Model_linsys.entry => fst (fst e)) es) <-> (In x (owned cells epart r) /\ attached dim cells nodes labels bc vs x) \/ (x = 0 /\ 0 < pad)) /\
  (forall e, In e (Proofs_linsys1.all_entries dim S L) -> In e es).
Proof.
  destruct (cs_system _ _ CS (va_BCdirichlet v) (va_dirichletfaces v) DB) as (WY & RG & _). change (dom_sys D (va_BCdirichlet v)) with S in WY, RG. change (dom_syslists D (va_dirichletfaces v)) with L in WY, RG.
  destruct (Properties_linsys.assembly_ok dim S L _ _ WY) as (es & (_ & AG) & EA). specialize (AG (Properties_linsys.regular_no_stale dim S L RG)). subst es. change (Model_linsys.sl_halo L) with (where_eq (dm_name D) 10) in EA.
  assert (PP : 0 <= pad) by (destruct (dim =? 2); [apply zlen_nonneg | lia]). set (n := pad) in *. eexists. split; [exact EA|]. split; [|split].
  - intros c. rewrite entries_app. f_equal. clear EA. unfold entries_in. replace (if c =? 0 then n else 0) with (if 0 =? c then Z.of_nat (Z.to_nat n) else 0) by (rewrite (Z.eqb_sym 0 c), Z2Nat.id by exact PP; reflexivity). induction (Z.to_nat n) as [|m IH]; [destruct (0 =? c); reflexivity|]. cbn [repeat filter]. change (fst (fst Model_linsys.e0)) with 0. destruct (0 =? c); [rewrite zlen_cons, IH; lia | exact IH].
  - intros x. rewrite map_app, in_app_iff. split.
    + intros [H|H].
      * left. apply in_map_iff in H as (e & Ee & He). destruct (Properties_linsys.entries_range dim S L _ _ WY (fst (fst e)) (snd (fst e))) as ((i & Hi & Ei) & _); [apply in_map_iff; exists e; split; [destruct e as ((a & b) & z); reflexivity | exact He]|].
        assert (Ii : iscell_of D i) by (unfold iscell_of; unfold Spec_linsys.nbcells in Hi; cbn [sys_of dom_sys Model_linsys.sy_N dom_node nd_centerc] in Hi; destruct (pa_sizes _ _ _ _ _ _ _ PA) as (_ & S2 & _); lia). rewrite glob_cell in Ei by exact Ii. assert (EX : x = gc i) by congruence. subst x. rewrite EX.
        split; [rewrite <- (pa_cells _ _ _ _ _ _ _ PA); apply nthZ_In; exact Ii|]. apply (row_attached i Ii). exists e. auto.
      * right. apply in_map_iff in H as (e & Ee & He). assert (EN : e = Model_linsys.e0) by exact (repeat_spec _ _ _ He). subst e. split; [symmetry; exact Ee|]. destruct (Z.to_nat n) eqn:En; [destruct He | lia].
    + intros [(Ho & Ha)|(-> & Hp)].
      * left. rewrite <- (pa_cells _ _ _ _ _ _ _ PA) in Ho. apply (In_nthZ (-1)) in Ho as (i & Hi & <-). apply (row_attached i Hi) in Ha as (e & He & Ee). apply in_map_iff. exists e. auto.
      * right. apply in_map_iff. exists Model_linsys.e0. split; [reflexivity|]. destruct (Z.to_nat n) eqn:En; [lia | left; reflexivity].
  - intros e He. apply in_or_app. left. exact He.
Qed.
End RankN.
