(** * Proofs_petsc2: the counts of a rank and their sum (C89). *)
From Coq Require Import Reals Lra Permutation Sorted.
From Verif Require Import Py PyLemmas Model_part Spec_part Model_label Model_conn Spec_conn Proofs_conn1 Proofs_conn2 Model_geom Spec_geom Proofs_geom1 Proofs_geom2 Proofs_geom3
  Model_halo Spec_halo Model_interp Spec_interp Proofs_interp4 Proofs_interp5 Proofs_interp6 Spec_lsq Proofs_lsq Properties_lsq Model_fvm Spec_fvm Proofs_fvm1 Proofs_fvm2 Properties_fvm Model_bc Spec_bc Spec_bc3 Proofs_label Proofs_bc Proofs_bc2 Proofs_bc3 Properties_bc3 Model_domain Spec_domain Proofs_domain1 Proofs_domain4
  Model_comm Model_parallel Spec_parallel Proofs_parallel1 Proofs_parallel6 Properties_parallel Model_run Spec_run Proofs_run1 Proofs_run2 Proofs_run3 Proofs_run4 Proofs_run5 Proofs_run6 Spec_run2 Model_run2 Proofs_run7 Proofs_run8 Proofs_run9 Proofs_run10 Proofs_run11 Proofs_run12 Proofs_run13 Proofs_run14 Proofs_run15 Spec_run3 Proofs_run16 Model_poisson Spec_poisson Proofs_poisson1 Proofs_poisson2 Proofs_poisson3 Spec_poisson2 Proofs_poisson4 Proofs_poisson5 Proofs_poisson6 Model_petsc Spec_petsc Proofs_petsc1.
From Verif Require Model_linsys Spec_linsys Properties_linsys Proofs_periodic Proofs_linsys1 Proofs_linsys5 Proofs_part2.
Open Scope Z_scope.

Lemma owned_order cells epart r : StronglySorted Z.lt (owned cells epart r).
Proof. unfold owned. apply sorted_lt_filter, Sorted_lt_range. Qed.
Lemma attached_dec dim cells nodes labels bc vs c : {attached dim cells nodes labels bc vs c} + {~ attached dim cells nodes labels bc vs c}.
Proof.
  destruct (existsb (fun F => match beside cells c F with Some _ => true | None => match facet_fixed dim nodes labels bc vs F with Some _ => true | None => false end end) (facets (cell cells c))) eqn:E; [left | right].
  - apply existsb_exists in E as (F & HF & E). exists F. split; [exact HF|]. destruct (beside cells c F); [left; discriminate|]. right. destruct (facet_fixed dim nodes labels bc vs F); [discriminate | discriminate E].
  - intros (F & HF & HA). assert (Q := E). apply Bool.not_true_iff_false in Q. apply Q. apply existsb_exists. exists F. split; [exact HF|]. destruct (beside cells c F); [reflexivity|]. destruct (facet_fixed dim nodes labels bc vs F); [reflexivity|]. destruct HA as [HA|HA]; contradiction.
Qed.

Section RankP.
Context (dim : Z) (cells : list (list Z)) (nodes : list pt) (labels epart : list Z) (r : Z) (D : domain).
Hypothesis PA : part_of dim cells nodes labels epart r D.
Context (bc : list (loc * bctype)) (vs : list (loc * bcval)) (es : list Model_linsys.entry) (pad : Z).
Notation att := (attached dim cells nodes labels bc vs).
Hypothesis ROWS : forall x, In x (map (fun e : Model_linsys.entry => fst (fst e)) es) <-> (In x (owned cells epart r) /\ att x) \/ (x = 0 /\ 0 < pad).
Notation own := (owned cells epart r).
Notation gs := (zlen cells).

Lemma nnz_from us : np_unique (map (fun e : Model_linsys.entry => fst (fst e)) es) = us -> zlen own <= zlen us -> exists b, petsc_nnz_rank gs D es = Ok b /\ zlen b = gs /\
    (forall i, iscell_of D i -> nthZ 0 b (gcell D i) = entries_in es (nthZ (-1) us i)) /\ forall g, 0 <= g < gs -> ~ In g own -> nthZ 0 b g = 0.
Proof.
  intros EU LU. pose proof (pa_cells _ _ _ _ _ _ _ PA) as EO. destruct (pa_sizes _ _ _ _ _ _ _ PA) as (_ & S2 & _).
  assert (RG : forall g, In g own -> 0 <= g < gs). { intros g Hg. apply filter_In in Hg as (Hg & _). apply in_range in Hg. exact Hg. }
  destruct (counts_ok D es own EO ltac:(rewrite S2, EO; reflexivity) us EU LU) as (k & EK & LK & VK).
  destruct (nnz_written gs D es k) as (b & EB & LB & V1 & V2); try assumption; try apply zlen_nonneg; try (rewrite EO; assumption); [rewrite EO; apply sorted_lt_NoDup, owned_order|].
  exists b. split; [exact EB|]. split; [exact LB|]. split; [|rewrite EO in V2; exact V2]. intros i Hi. rewrite (V1 i Hi). apply VK. unfold iscell_of in Hi. rewrite EO in Hi. exact Hi.
Qed.
(** every cell has an entry: the counts in the order of the cells, or after an additional first one *)
Lemma nnz_rank : (forall c, In c own -> att c) -> exists b, petsc_nnz_rank gs D es = Ok b /\ zlen b = gs /\
    (forall i, iscell_of D i -> (pad <= 0 \/ In 0 own -> nthZ 0 b (gcell D i) = entries_in es (gcell D i)) /\ (0 < pad -> ~ In 0 own -> nthZ 0 b (gcell D i) = entries_in es (if i =? 0 then 0 else gcell D (i - 1)))) /\
    forall g, 0 <= g < gs -> ~ In g own -> nthZ 0 b g = 0.
Proof.
  intros HA. pose proof (pa_cells _ _ _ _ _ _ _ PA) as EO. destruct (Z_le_dec pad 0) as [P0|P0]; [|destruct (in_dec Z.eq_dec 0 own) as [I0|I0]].
  1, 2 : destruct (nnz_from own) as (b & E & LB & V & W); [apply sorted_lt_unique; [apply np_unique_sorted | apply owned_order|]; intros x; rewrite np_unique_In, ROWS; split; [intros [(H & _)|(-> & H)]; [exact H | first [lia | exact I0]] | intros H; left; auto] | lia |];
    exists b; split; [exact E|]; split; [exact LB|]; split; [|exact W]; intros i Hi; split; [|first [intros; lia | intros _ Q; contradiction]]; intros _; rewrite (V i Hi); unfold gcell; rewrite EO; reflexivity.
  destruct (nnz_from (0 :: own)) as (b & E & LB & V & W).
  - apply sorted_lt_unique; [apply np_unique_sorted | |].
    + apply SSorted_cons; [apply owned_order|]. apply Forall_forall. intros x Hx. assert (0 <= x < gs) by (apply filter_In in Hx as (Hx & _); apply in_range in Hx; exact Hx). assert (x <> 0) by (intros ->; contradiction). lia.
    + intros x. rewrite np_unique_In, ROWS. cbn [In]. split; [intros [(H & _)|(-> & _)]; auto | intros [<-|H]; [right; split; [reflexivity | lia] | left; auto]].
  - rewrite zlen_cons. lia.
  - exists b. split; [exact E|]. split; [exact LB|]. split; [|exact W]. intros i Hi. split; [intros [H|H]; [lia | contradiction]|]. intros _ _. rewrite (V i Hi). f_equal. destruct (Z.eqb_spec i 0) as [->|Ni]; [reflexivity|]. unfold iscell_of in Hi. unfold gcell. rewrite EO, nthZ_cons by lia. replace (i =? 0) with false by lia. reflexivity.
Qed.
(** a cell without an entry *)
Lemma nnz_short : pad <= 0 -> (exists c, In c own /\ ~ att c) -> petsc_nnz_rank gs D es = Err IndexError.
Proof.
  intros P0 (c & Hc & NA). pose proof (pa_cells _ _ _ _ _ _ _ PA) as EO. destruct (pa_sizes _ _ _ _ _ _ _ PA) as (_ & S2 & _). unfold petsc_nnz_rank, petsc_counts. cbv zeta. match goal with |- context [np_unique ?m] => change m with (map (fun e : Model_linsys.entry => fst (fst e)) es) end. set (us := np_unique _).
  assert (LT : zlen us < zlen own).
  { assert (LL : (List.length (c :: us) <= List.length own)%nat). { apply NoDup_incl_length; [apply NoDup_cons; [unfold us; rewrite np_unique_In, ROWS; intros [(_ & H)|(_ & H)]; [contradiction | lia] | apply np_unique_NoDup]|]. intros x [<-|Hx]; [exact Hc|]. unfold us in Hx. rewrite np_unique_In, ROWS in Hx. destruct Hx as [(H & _)|(_ & H)]; [exact H | lia]. }
    cbn [List.length] in LL. unfold zlen. lia. }
  rewrite mapM_short; [reflexivity | intros i Hi; apply in_range in Hi; lia|]. exists (zlen us). split; [|rewrite zlen_map; lia]. apply in_range. rewrite S2, EO. pose proof (zlen_nonneg us). lia.
Qed.
End RankP.

Lemma sum_one (g : Z -> Z) n k : 0 <= k < n -> (forall r, 0 <= r < n -> r <> k -> g r = 0) -> fold_right Z.add 0 (map g (range n)) = g k.
Proof.
  intros Hk H. assert (G : forall l, NoDup l -> (forall r, In r l -> r <> k -> g r = 0) -> fold_right Z.add 0 (map g l) = if mem k l then g k else 0).
  { induction l as [|x l IH]; intros ND Hl; [reflexivity|]. inversion ND as [|x' l' NI ND']; subst. cbn [map fold_right]. rewrite IH by (auto; intros r Hr; apply Hl; right; exact Hr). destruct (Z.eq_dec x k) as [->|Nx].
    - rewrite (proj2 (mem_not_In k l)) by exact NI. replace (mem k (k :: l)) with true by (symmetry; apply mem_In; left; reflexivity). lia.
    - rewrite (Hl x (or_introl eq_refl) Nx). replace (mem k (x :: l)) with (mem k l); [lia|]. destruct (mem k l) eqn:E; symmetry; [apply mem_In; right; apply mem_In; exact E | apply mem_not_In; apply mem_not_In in E; intros [Q|Q]; auto]. }
  rewrite G; [|apply NoDup_range | intros r Hr Nr; apply in_range in Hr; auto]. replace (mem k (range n)) with true; [reflexivity|]. symmetry. apply mem_In, in_range. exact Hk.
Qed.
Lemma entries_concat ls c : entries_in (concat ls) c = fold_right Z.add 0 (map (fun l => entries_in l c) ls).
Proof. induction ls as [|l ls IH]; [reflexivity|]. cbn [concat map fold_right]. rewrite entries_app, IH. reflexivity. Qed.

Section RanksP.
Context (dim SIZE : Z) (cells : list (list Z)) (nodes : list pt) (labels npart0 epart : list Z) (st : setting).
Hypothesis VM : valid_mesh dim cells nodes labels.
Hypothesis PL : dim = 2 -> planar nodes.
Hypothesis VS : valid_split dim SIZE cells nodes npart0 epart.
Notation Ds := (se_domains st).
Notation Dr := (domain_of (se_domains st)).
Hypothesis RP : represents dim SIZE cells nodes labels epart Ds.
Hypothesis CS : forall r, 0 <= r < SIZE -> consistent dim (Dr r).
Context (bc : list (loc * bctype)) (vs : list (loc * bcval)).
Hypothesis BV : bc_valid dim bc vs.
Notation PAr := (rp_part _ _ _ _ _ _ _ RP).
Notation holds := (holds SIZE st bc vs).
Notation size1 := (size11 dim SIZE cells nodes npart0 epart VS).
Notation get_dom := (dom11 dim SIZE cells nodes labels epart st RP).
Notation att := (attached dim cells nodes labels bc vs).
Notation own r := (owned cells epart r).
(** the entries added at the end in 2D *)
Definition padding (r : Z) : Z := if dim =? 2 then zlen (where_eq (dm_name (Dr r)) 10) else 0.
Definition rank_rows (r : Z) (es : list Model_linsys.entry) : Prop :=
  (forall x, In x (map (fun e : Model_linsys.entry => fst (fst e)) es) <-> (In x (own r) /\ att x) \/ (x = 0 /\ 0 < padding r)) /\
  (~ In 0 (own r) -> entries_in es 0 = padding r) /\
  (forall f c, isface (Dr r) f -> nthZ [] (dm_cellid (Dr r)) f = [c; -10] -> iscell_of (Dr r) c -> nthZ 0 (dm_name (Dr r)) f = 10 -> ishalo_of (Dr r) (nthZ 0 (dm_halofid (Dr r)) f) ->
     (exists x, In (gcell (Dr r) c, gcell (Dr r) c, x) es) /\ exists x, In (gcell (Dr r) c, ghalo (Dr r) (nthZ 0 (dm_halofid (Dr r)) f), x) es).
Lemma assembled X l : holds X l -> exists es, assemble SIZE st l = Ok es /\ zlen es = SIZE /\ forall r, 0 <= r < SIZE -> exists e, get es r = Ok e /\ rank_rows r e.
Proof.
  intros (ws & Ll & _ & HV). pose proof size1 as S1.
  destruct (mapM_ranks (fun r => do D <- get Ds r; do v <- get l r; Model_linsys.assembly (dm_dim D) (sys_of D v) (lists_of D v)) rank_rows SIZE ltac:(lia)) as (es & E & LE & HE).
  - intros r Hr. destruct (HV r Hr) as (v & Ev & FV). rewrite (get_dom r Hr). cbn [bind]. rewrite Ev. cbn [bind]. rewrite (dim11 dim SIZE st CS r Hr). set (D := Dr r) in *. pose proof (PAr r Hr) as PA. pose proof (CS r Hr) as CSr. fold D in PA, CSr.
    assert (DB : forall f, In f (va_dirichletfaces v) -> on_boundary D f). { intros f Hf. apply (in_dir_face dim cells nodes labels epart r D PA CSr bc vs _ v FV f) in Hf as (If & s & Hl & En). apply (boundary_listed dim SIZE cells nodes labels epart st VM RP CS r f Hr If). fold D. exact (dirichlet_label dim cells nodes labels epart r D VM PL PA CSr bc vs BV f s Hl En). }
    destruct (full_bord (dom_bc D) bc vs (cs_bc _ _ CSr) (settings_ok dim cells nodes labels epart r D VM PA CSr bc vs BV) _ v FV) as (B & EB & BD).
    destruct (triplets_ok dim cells nodes labels epart r D VM PL PA CSr bc vs BV _ v FV B BD DB) as (e & Ee & CN & RW & IN). exists e. split; [exact Ee|]. split; [exact RW|]. split.
    + intros NI. rewrite CN, Z.eqb_refl. rewrite entries_none; [reflexivity|]. intros x Hx Q. assert (HR : In 0 (map (fun e : Model_linsys.entry => fst (fst e)) (Proofs_linsys1.all_entries dim (sys_of D v) (lists_of D v)))) by (apply in_map_iff; exists x; auto).
      destruct (cs_system _ _ CSr (va_BCdirichlet v) (va_dirichletfaces v) DB) as (WY & _). change (dom_sys D (va_BCdirichlet v)) with (sys_of D v) in WY. change (dom_syslists D (va_dirichletfaces v)) with (lists_of D v) in WY.
      destruct (Properties_linsys.entries_range dim _ _ _ _ WY (fst (fst x)) (snd (fst x))) as ((i & Hi & Ei) & _); [apply in_map_iff; exists x; split; [destruct x as ((a & b) & z); reflexivity | exact Hx]|].
      assert (Ii : iscell_of D i) by (unfold iscell_of; unfold Spec_linsys.nbcells in Hi; cbn [sys_of dom_sys Model_linsys.sy_N dom_node nd_centerc] in Hi; destruct (pa_sizes _ _ _ _ _ _ _ PA) as (_ & S2 & _); rewrite <- S2; exact Hi). rewrite (glob_cell D v i Ii) in Ei. apply NI. rewrite <- (pa_cells _ _ _ _ _ _ _ PA). rewrite <- Q, Ei. apply nthZ_In. exact Ii.
    + intros f c If row Hc name Hh. fold D in If, row, Hc, name, Hh |- *. assert (Hin : In f (Model_linsys.sl_halo (lists_of D v))) by (apply (in_halo_face dim cells nodes labels epart r D PA CSr v); auto).
      destruct (halo_row dim D v f c Hin row Hc) as (e1 & e2 & I1 & I2 & E1 & E2).
      assert (SH : Spec_linsys.global_halo (sys_of D v) (nthZ 0 (dm_halofid D) f) = ghalo D (nthZ 0 (dm_halofid D) f)).
      { destruct (cs_system _ _ CSr (va_BCdirichlet v) [] ltac:(intros ? [])) as (WY & _). destruct (pa_sizes _ _ _ _ _ _ _ PA) as (_ & _ & _ & _ & _ & EH & _). unfold Spec_linsys.global_halo, ghalo. cbn [sys_of dom_sys Model_linsys.sy_hext]. apply nthZ_indep. split; [lia|]. apply (Spec_linsys.wy_hext _ _ _ _ _ WY). unfold Spec_linsys.nbhalos. cbn [dom_sys Model_linsys.sy_N dom_node nd_centerh]. unfold ishalo_of in Hh. lia. }
      assert (AL : forall x, In x (Proofs_linsys1.halo_entries dim (sys_of D v) f) -> In x e) by (intros x Hx; apply IN; unfold Proofs_linsys1.all_entries; apply in_or_app; right; apply in_or_app; left; apply in_flat_map; exists f; auto).
      split; [exists (snd e1) | exists (snd e2)]; [replace (gcell D c, gcell D c, snd e1) with e1 by (destruct e1 as (a & b); cbn [fst snd] in *; rewrite E1; reflexivity); auto | rewrite <- SH; replace (gcell D c, Spec_linsys.global_halo (sys_of D v) (nthZ 0 (dm_halofid D) f), snd e2) with e2 by (destruct e2 as (a & b); cbn [fst snd] in *; rewrite E2; reflexivity); auto].
  - exists es. split; [exact E|]. split; [exact LE|]. intros r Hr. destruct (HE r Hr) as (e & Ge & _ & Re). exists e. auto.
Qed.
End RanksP.
