(** * Proofs_var1: variables made by the operators (C87) and the arrays shared through the domain (C86). *)
From Coq Require Import Reals Lra Permutation Sorted.
From Verif Require Import Py PyLemmas Model_part Spec_part Model_label Model_conn Spec_conn Proofs_conn1 Model_geom Spec_geom Model_interp Spec_interp Spec_lsq Model_fvm Spec_fvm Model_bc Spec_bc Spec_bc3
  Model_domain Spec_domain Model_parallel Spec_parallel Model_comm Model_run Spec_run Proofs_run1 Proofs_run3 Proofs_run5 Spec_run2 Model_run2 Proofs_run9 Proofs_run11 Proofs_run13 Proofs_run14 Proofs_run15 Spec_run3 Proofs_run16
  Proofs_poisson2 Model_poisson Spec_run6 Proofs_run30 Model_linsys Model_var.
Open Scope Z_scope.

Lemma get_app {A} (h : list A) z k : 0 <= k < zlen h -> get (h ++ [z]) k = get h k.
Proof. intros Hk. rewrite !(get_nthZ z) by (rewrite ?zlen_app; change (zlen [z]) with 1; lia). f_equal. apply nthZ_app_l. lia. Qed.
Lemma set_app {A} (h : list A) z k x h' : 0 <= k < zlen h -> set h k x = Ok h' -> set (h ++ [z]) k x = Ok (h' ++ [z]) /\ zlen h' = zlen h.
Proof.
  intros Hk E. rewrite set_upd in E by lia. injection E as <-. rewrite set_upd by (rewrite zlen_app; change (zlen [z]) with 1; lia). split; [|apply zlen_upd]. f_equal.
  apply (nthZ_ext x); [rewrite !zlen_upd, !zlen_app, !zlen_upd; reflexivity|]. intros i Hi. rewrite zlen_upd, zlen_app in Hi. change (zlen [z]) with 1 in Hi.
  destruct (Z.eq_dec i (zlen h)) as [->|Ni].
  - rewrite nthZ_upd_neq by lia. rewrite nthZ_app_last. replace (zlen h) with (zlen (upd h k x)) by apply zlen_upd. rewrite nthZ_app_last. reflexivity.
  - rewrite (nthZ_app_l x (upd h k x)) by (rewrite zlen_upd; lia). destruct (Z.eq_dec i k) as [->|Nk].
    + rewrite !nthZ_upd_eq by (rewrite ?zlen_app; change (zlen [z]) with 1; lia). reflexivity.
    + rewrite !nthZ_upd_neq by lia. apply nthZ_app_l. lia.
Qed.

(** ** a variable whose attribute cell was bound to another array *)
Definition refs_ok (b : boundary) : Prop := 0 <= b_vface b < 9 /\ 0 <= b_vhalo b < 9.
Definition refs_all (d : list (loc * boundary)) : Prop := forall l b, In (l, b) d -> refs_ok b.
Lemma default_refs D ls : forall s s', foldM (bc_default D) ls s = Ok s' -> refs_all (vs_bcs s) -> 0 <= vs_vf s < 9 -> 0 <= vs_vh s < 9 -> refs_all (vs_bcs s').
Proof.
  induction ls as [|l ls IH]; intros s s' E H1 H2 H3; [cbn in E; injection E as <-; exact H1|]. cbn [foldM] in E. apply bind_ok in E as (s1 & E1 & E). unfold bc_default in E1. apply bind_ok in E1 as ((per, ix) & _ & E1). destruct per; cbn [new_boundary bind] in E1; injection E1 as <-.
  - apply (IH _ _ E); cbn [vs_bcs vs_vf vs_vh]; try assumption. intros l' b [Eb|Hb]; [|exact (H1 l' b Hb)]. injection Eb as _ <-. split; assumption.
  - apply (IH _ _ E); cbn [vs_bcs vs_vf vs_vh]; try (unfold r_cell, r_halo; lia). intros l' b [Eb|Hb]; [|exact (H1 l' b Hb)]. injection Eb as _ <-. split; cbn [with_values b_vface b_vhalo]; unfold r_cell, r_halo; lia.
Qed.
Lemma new_refs D v : new_variable D None None = Ok v -> refs_all (va_bcs v).
Proof.
  intros E. unfold new_variable in E. apply bind_ok in E as (s & E & E2). injection E2 as <-. cbn [va_bcs]. apply (default_refs D _ _ _ E); [intros l b [] | |]; cbn [init_state vs_vf vs_vh]; unfold r_vface, r_vhalo; lia.
Qed.
Lemma update_one_app D h b z h' : zlen h = 9 -> refs_ok b -> update_one D h b = Ok h' -> update_one D (h ++ [z]) b = Ok (h' ++ [z]) /\ zlen h' = 9.
Proof.
  intros L (R1 & R2) E. unfold update_one in E |- *. rewrite (get_app h z (b_vface b)), (get_app h z (b_vhalo b)), (get_app h z r_ghost), (get_app h z r_haloghost) by (rewrite L; unfold r_ghost, r_haloghost; lia).
  apply bind_ok in E as (vf & -> & E). apply bind_ok in E as (vh & -> & E). apply bind_ok in E as (g & -> & E). apply bind_ok in E as (hg & -> & E). cbn [bind]. cbv zeta in E. apply bind_ok in E as (gs & -> & E). cbn [bind]. apply bind_ok in E as (h1 & E1 & E2).
  destruct (set_app h z r_ghost _ _ ltac:(unfold r_ghost; lia) E1) as (E1' & L1). rewrite E1'. cbn [bind]. destruct (set_app h1 z r_haloghost _ _ ltac:(unfold r_haloghost; lia) E2) as (E2' & L2). rewrite E2'. split; [reflexivity | lia].
Qed.
Lemma lookup_in {V} (d : list (loc * V)) l b : lookup d l = Some b -> exists l', In (l', b) d.
Proof. unfold lookup. destruct (find _ d) as [(l', b')|] eqn:E; [|discriminate]. intros H. injection H as <-. exists l'. exact (proj1 (find_some _ _ E)). Qed.
(** the variable v, except that its attribute cell denotes a new array z *)
Definition rebound (v : variable) (z : list R) : variable := assign_cell v z.
Lemma update_app D v z v' : zlen (va_heap v) = 9 -> refs_all (va_bcs v) -> update_ghost_value D v = Ok v' -> va_bcs v' = va_bcs v /\ zlen (va_heap v') = 9 /\ exists v2, update_ghost_value D (assign_cell v z) = Ok v2 /\ va_heap v2 = va_heap v' ++ [z] /\ va_cell v2 = 9 /\ va_bcs v2 = va_bcs v.
Proof.
  intros L HR E. unfold update_ghost_value in E |- *. apply bind_ok in E as (h & E & E2). injection E2 as <-. cbn [va_bcs va_heap assign_cell va_cell].
  assert (K : forall ls h0 h1, zlen h0 = 9 -> foldM (fun h l => match lookup (va_bcs v) l with None => Err AttributeError | Some b => update_one D h b end) ls h0 = Ok h1 ->
    foldM (fun h l => match lookup (va_bcs v) l with None => Err AttributeError | Some b => update_one D h b end) ls (h0 ++ [z]) = Ok (h1 ++ [z]) /\ zlen h1 = 9).
  { induction ls as [|l ls IH]; intros h0 h1 L0 E0; cbn [foldM] in E0 |- *; [injection E0 as <-; auto|]. apply bind_ok in E0 as (h2 & E2 & E0). destruct (lookup (va_bcs v) l) as [b|] eqn:EL; [|discriminate E2]. destruct (lookup_in _ _ _ EL) as (l' & Hb).
    destruct (update_one_app D h0 b z h2 L0 (HR l' b Hb) E2) as (E3 & L2). rewrite E3. cbn [bind]. exact (IH h2 h1 L2 E0). }
  destruct (K _ _ _ L E) as (E1 & L1). split; [reflexivity|]. split; [exact L1|]. rewrite E1. cbn [bind]. eexists. split; [reflexivity|]. cbn [va_heap va_cell va_bcs]. rewrite L. auto.
Qed.
Lemma write_app v z k x v' : zlen (va_heap v) = 9 -> 0 <= k < 9 -> write_array v k x = Ok v' -> write_array (assign_cell v z) k x = Ok (assign_cell v' z) /\ zlen (va_heap v') = 9 /\ va_bcs v' = va_bcs v.
Proof.
  intros L Hk E. unfold write_array in E |- *. apply bind_ok in E as (h & E & E2). injection E2 as <-. cbn [va_heap assign_cell va_cell va_bcs va_dirichletfaces va_neumannfaces va_BCdirichlet va_BCneumann].
  destruct (set_app (va_heap v) z k x h ltac:(lia) E) as (E1 & L1). rewrite E1. cbn [bind]. split; [|split; [lia | reflexivity]]. unfold assign_cell. cbn [va_heap va_cell va_bcs va_dirichletfaces va_neumannfaces va_BCdirichlet va_BCneumann]. rewrite L1. reflexivity.
Qed.
Lemma assigned_cell v z : cell_of (assign_cell v z) = Ok z.
Proof. unfold cell_of, assign_cell. cbn [va_heap va_cell]. rewrite (get_nthZ []) by (rewrite zlen_app; change (zlen [z]) with 1; pose proof (zlen_nonneg (va_heap v)); lia). f_equal. apply nthZ_app_last. Qed.

Lemma elementwise_ok f x y : zlen x = zlen y -> exists z, elementwise f x y = Ok z /\ zlen z = zlen x /\ forall i, 0 <= i < zlen x -> nthZ 0%R z i = f (nthZ 0%R x i) (nthZ 0%R y i).
Proof.
  intros E. unfold elementwise. rewrite (proj2 (Z.eqb_eq _ _) E). eexists. split; [reflexivity|]. assert (L : zlen (combine x y) = zlen x) by (unfold zlen in *; rewrite combine_length; lia).
  split; [rewrite zlen_map; exact L|]. intros i Hi. rewrite (nthZ_map _ (0%R, 0%R)) by lia. unfold nthZ. rewrite combine_nth by (unfold zlen in E; lia). reflexivity.
Qed.

Section RanksV.
Context (dim SIZE : Z) (cells : list (list Z)) (nodes : list pt) (labels npart0 epart : list Z) (st : setting).
Hypothesis VM : valid_mesh dim cells nodes labels.
Hypothesis VS : valid_split dim SIZE cells nodes npart0 epart.
Notation Ds := (se_domains st).
Notation Dr := (domain_of (se_domains st)).
Hypothesis RP : represents dim SIZE cells nodes labels epart Ds.
Hypothesis CS : forall r, 0 <= r < SIZE -> consistent dim (Dr r).
Hypothesis HX : 1 < SIZE -> forall (V : Type) (d : V) (X : Z -> V) (w : list (list V)), values_of d SIZE Ds X w -> exists halo, update_halo_value SIZE (se_comms st) w = Ok halo /\ halo_values_of d SIZE Ds X halo.
Notation PAr := (rp_part _ _ _ _ _ _ _ RP).
Notation dom := (dom11 dim SIZE cells nodes labels epart st RP).
Notation size1 := (size11 dim SIZE cells nodes npart0 epart VS).

Lemma made_default r : 0 <= r < SIZE -> exists v, new_variable (dom_bc (Dr r)) None None = Ok v /\ vfull (dom_bc (Dr r)) (open_sides dim) [] (held (dom_bc (Dr r)) []) v /\ refs_all (va_bcs v).
Proof.
  intros Hr. pose proof (settings11 dim SIZE cells nodes labels epart st VM RP CS (open_sides dim) [] (open_valid dim) r Hr) as SO. pose proof (cs_bc _ _ (CS r Hr)) as WB.
  destruct (full_new (dom_bc (Dr r)) (open_sides dim) [] WB (distinct11 dim SIZE cells nodes labels epart st RP CS r Hr) SO) as (v & Ev & FV). rewrite <- (default_open dim cells nodes labels epart r (Dr r) VM (PAr r Hr) (CS r Hr)) in Ev. exists v. split; [exact Ev|]. split; [exact FV | exact (new_refs _ _ Ev)].
Qed.
Lemma holding_get X l r : holding SIZE st X l -> 0 <= r < SIZE -> zlen l = SIZE /\ exists v w, get l r = Ok v /\ cell_of v = Ok w /\ zlen w = zlen (dm_loctoglob (Dr r)) /\ forall c, iscell_of (Dr r) c -> nthZ 0%R w c = X (gcell (Dr r) c).
Proof.
  intros (ws & E & LW & HV) Hr. pose proof (mapM_zlen _ _ _ E) as L. assert (Ll : zlen l = SIZE) by lia. split; [exact Ll|].
  destruct l as [|v0 l0] eqn:El; [change (zlen (@nil variable)) with 0 in Ll; lia|]. rewrite <- El in *. clear El. exists (nthZ v0 l r), (nthZ [] ws r). split; [apply get_nthZ; lia|]. split; [exact (mapM_nthZ _ _ _ v0 [] r E ltac:(lia))|]. exact (HV r Hr).
Qed.
Lemma holding_intro (F : Z -> res variable) X : (forall r, 0 <= r < SIZE -> exists v w, F r = Ok v /\ cell_of v = Ok w /\ zlen w = zlen (dm_loctoglob (Dr r)) /\ forall c, iscell_of (Dr r) c -> nthZ 0%R w c = X (gcell (Dr r) c)) ->
  exists l, mapM F (range SIZE) = Ok l /\ zlen l = SIZE /\ holding SIZE st X l /\ forall r, 0 <= r < SIZE -> exists v, get l r = Ok v /\ F r = Ok v.
Proof.
  intros H. pose proof size1 as S1. destruct (mapM_ranks F (fun r v => exists w, cell_of v = Ok w /\ zlen w = zlen (dm_loctoglob (Dr r)) /\ forall c, iscell_of (Dr r) c -> nthZ 0%R w c = X (gcell (Dr r) c)) SIZE ltac:(lia)) as (l & E & L & HL).
  { intros r Hr. destruct (H r Hr) as (v & w & E & Q). exists v. split; [exact E|]. exists w. exact Q. }
  exists l. split; [exact E|]. split; [exact L|]. split; [|intros r Hr; destruct (HL r Hr) as (v & Ev & Ef & _); exists v; auto].
  assert (KK : exists ws, mapM cell_of l = Ok ws).
  { apply mapM_total. intros v Hv. apply (In_nthZ v) in Hv as (i & Hi & <-). destruct (HL i ltac:(lia)) as (v' & Ev & _ & w & Ew & _). rewrite (get_nthZ v) in Ev by lia. injection Ev as <-. exists w. exact Ew. }
  destruct KK as (ws & Ews). exists ws. split; [exact Ews|]. split; [rewrite (mapM_zlen _ _ _ Ews); exact L|]. intros r Hr. destruct (HL r Hr) as (v & Ev & _ & w & Ew & Lw & Hw). destruct (mapM_get _ _ _ _ _ Ews Ev ltac:(lia)) as (w' & Gw & Ew'). rewrite Ew in Ew'. injection Ew' as <-.
  rewrite (get_nthZ []) in Gw by (rewrite (mapM_zlen _ _ _ Ews); lia). injection Gw as ->. auto.
Qed.
Lemma operate_rank f X Y l1 l2 r : holding SIZE st X l1 -> holding SIZE st Y l2 -> 0 <= r < SIZE ->
  exists v0 a b z, new_variable (dom_bc (Dr r)) None None = Ok v0 /\ get l1 r = Ok a /\ get l2 r = Ok b /\ operate f (dom_bc (Dr r)) a b = Ok (assign_cell v0 z) /\ zlen z = zlen (dm_loctoglob (Dr r)) /\
    forall c, iscell_of (Dr r) c -> nthZ 0%R z c = f (X (gcell (Dr r) c)) (Y (gcell (Dr r) c)).
Proof.
  intros H1 H2 Hr. destruct (holding_get X l1 r H1 Hr) as (_ & a & x & Ea & Ex & Lx & Vx). destruct (holding_get Y l2 r H2 Hr) as (_ & b & y & Eb & Ey & Ly & Vy). destruct (made_default r Hr) as (v0 & Ev & _).
  destruct (elementwise_ok f x y ltac:(lia)) as (z & Ez & Lz & Vz). exists v0, a, b, z. unfold operate. rewrite Ev. cbn [bind]. rewrite Ex. cbn [bind]. rewrite Ey. cbn [bind]. rewrite Ez. cbn [bind]. do 4 (split; [first [reflexivity | assumption]|]). split; [lia|].
  intros c Hc. rewrite Vz by (unfold iscell_of in Hc; lia). rewrite Vx, Vy by exact Hc. reflexivity.
Qed.
Lemma operate_ok f X Y l1 l2 : holding SIZE st X l1 -> holding SIZE st Y l2 -> exists l3, operate_all f SIZE st l1 l2 = Ok l3 /\ holding SIZE st (fun c => f (X c) (Y c)) l3.
Proof.
  intros H1 H2. destruct (holding_intro (fun r => do D <- get Ds r; do a <- get l1 r; do b <- get l2 r; operate f (dom_bc D) a b) (fun c => f (X c) (Y c))) as (l & E & _ & H & _); [|exists l; auto].
  intros r Hr. destruct (operate_rank f X Y l1 l2 r H1 H2 Hr) as (v0 & a & b & z & _ & Ea & Eb & Eo & Lz & Vz). rewrite (dom r Hr), Ea, Eb. cbn [bind]. exists (assign_cell v0 z), z. split; [exact Eo|]. split; [apply assigned_cell|]. auto.
Qed.
Lemma divide_rank Y l2 r a b : holding SIZE st Y l2 -> 0 <= r < SIZE -> get l2 r = Ok b -> (forall c, iscell_of (Dr r) c -> Y (gcell (Dr r) c) <> 0%R) -> divide (dom_bc (Dr r)) a b = operate Rdiv (dom_bc (Dr r)) a b.
Proof.
  intros H2 Hr Eb HY. destruct (holding_get Y l2 r H2 Hr) as (_ & b' & y & Eb' & Ey & Ly & Vy). rewrite Eb in Eb'. injection Eb' as <-. unfold divide, operate. destruct (made_default r Hr) as (v0 & Ev & _). rewrite Ev. cbn [bind]. destruct (cell_of a) as [x|]; [|reflexivity]. cbn [bind]. rewrite Ey. cbn [bind].
  replace (forallb _ y) with true; [reflexivity|]. symmetry. apply forallb_forall. intros t Ht. apply (In_nthZ 0%R) in Ht as (i & Hi & <-). destruct (Req_EM_T _ _) as [E|]; [|reflexivity]. exfalso. apply (HY i ltac:(unfold iscell_of; lia)). rewrite <- Vy by (unfold iscell_of; lia). exact E.
Qed.
Lemma divide_zero X Y l1 l2 r a b c : holding SIZE st X l1 -> holding SIZE st Y l2 -> 0 <= r < SIZE -> get l1 r = Ok a -> get l2 r = Ok b -> iscell_of (Dr r) c -> Y (gcell (Dr r) c) = 0%R -> divide (dom_bc (Dr r)) a b = Err ValueError.
Proof.
  intros H1 H2 Hr Ea Eb Hc HY. destruct (holding_get X l1 r H1 Hr) as (_ & a' & x & Ea' & Ex & Lx & Vx). rewrite Ea in Ea'. injection Ea' as <-. destruct (holding_get Y l2 r H2 Hr) as (_ & b' & y & Eb' & Ey & Ly & Vy). rewrite Eb in Eb'. injection Eb' as <-.
  unfold divide. destruct (made_default r Hr) as (v0 & Ev & _). rewrite Ev. cbn [bind]. rewrite Ex. cbn [bind]. rewrite Ey. cbn [bind]. destruct (forallb _ y) eqn:EF; [|reflexivity]. exfalso. assert (Hc' : 0 <= c < zlen y) by (unfold iscell_of in Hc; lia). pose proof (proj1 (forallb_forall _ _) EF (nthZ 0%R y c) (nthZ_In _ _ _ Hc')) as Q. cbv beta in Q. destruct (Req_EM_T _ _) as [|NE]; [discriminate Q|]. apply NE. rewrite Vy by exact Hc. exact HY.
Qed.

(** after update_values: the halos follow the new values, the ghosts do not *)
Lemma operate_update f X Y l1 l2 : holding SIZE st X l1 -> holding SIZE st Y l2 ->
  exists l3 l4, operate_all f SIZE st l1 l2 = Ok l3 /\ update_values SIZE st l3 = Ok l4 /\ holding SIZE st (fun c => f (X c) (Y c)) l4 /\
    forall r, 0 <= r < SIZE -> exists v h g, get l4 r = Ok v /\ get (va_heap v) r_halo = Ok h /\ ghost_of v = Ok g /\ (forall i, ishalo_of (Dr r) i -> nthZ 0%R h i = f (X (ghalo (Dr r) i)) (Y (ghalo (Dr r) i))) /\
      forall i, isface (Dr r) i -> 1 <= nthZ 0 (dm_name (Dr r)) i <= 2 * dim -> nthZ 0%R g i = 0%R.
Proof.
  intros H1 H2. pose proof size1 as S1. set (Q := fun c => f (X c) (Y c)).
  destruct (holding_intro (fun r => do D <- get Ds r; do a <- get l1 r; do b <- get l2 r; operate f (dom_bc D) a b) Q) as (l3 & E3 & L3 & (ws & Ews & HV) & G3).
  { intros r Hr. destruct (operate_rank f X Y l1 l2 r H1 H2 Hr) as (v0 & a & b & z & _ & Ea & Eb & Eo & Lz & Vz). rewrite (dom r Hr), Ea, Eb. cbn [bind]. exists (assign_cell v0 z), z. split; [exact Eo|]. split; [apply assigned_cell|]. auto. }
  destruct (Proofs_run5.exchange_ok dim SIZE cells nodes labels npart0 epart st VS RP HX 0%R Q ws HV) as (halo & EH & LH & HH).
  assert (STEP : forall r, 0 <= r < SIZE -> exists v2 v1 z, (do D <- get Ds r; do v <- get l3 r; do h <- get halo r; do v <- write_array v r_halo h; update_ghost_value (dom_bc D) v) = Ok v2 /\ va_heap v2 = v1 ++ [z] /\ va_cell v2 = 9 /\ zlen v1 = 9 /\
     zlen z = zlen (dm_loctoglob (Dr r)) /\ (forall c, iscell_of (Dr r) c -> nthZ 0%R z c = Q (gcell (Dr r) c)) /\ nthZ [] v1 2 = nthZ [] halo r /\ (forall i, isface (Dr r) i -> 1 <= nthZ 0 (dm_name (Dr r)) i <= 2 * dim -> nthZ 0%R (nthZ [] v1 3) i = 0%R)).
  { intros r Hr. destruct (operate_rank f X Y l1 l2 r H1 H2 Hr) as (v0 & a & b & z & Ev0 & Ea & Eb & Eo & Lz & Vz). destruct (G3 r Hr) as (v3 & Ev3 & EF). rewrite (dom r Hr), Ea, Eb in EF. cbn [bind] in EF. rewrite Eo in EF. injection EF as <-.
    destruct (made_default r Hr) as (v0' & Ev0' & FV & RF). rewrite Ev0 in Ev0'. injection Ev0' as <-. rewrite (dom r Hr). cbn [bind]. rewrite Ev3. cbn [bind]. rewrite (get_nthZ []) by lia. cbn [bind]. destruct (HH r Hr) as (Lh & Vh). destruct (wb_size _ (cs_bc _ _ (CS r Hr))) as (Q1 & Q2 & Q3 & _).
    destruct (full_write (dom_bc (Dr r)) (open_sides dim) [] _ v0 r_halo (nthZ [] halo r) FV) as (v1 & EW & FV1 & EH1); [unfold r_halo; lia | change (nthZ [] (vs_heap (init_state (dom_bc (Dr r)))) r_halo) with (zeros_like 0%R (bd_nbhalos (dom_bc (Dr r)))); rewrite zlen_zeros_like by exact Q3; cbn [dom_bc bd_nbhalos]; destruct (pa_sizes _ _ _ _ _ _ _ (PAr r Hr)) as (_ & _ & _ & _ & _ & EHs & _); lia|].
    pose proof (full_heap _ _ _ _ _ FV) as LHp. destruct (write_app v0 z r_halo _ v1 LHp ltac:(unfold r_halo; lia) EW) as (EW' & L1 & B1). rewrite EW'. cbn [bind]. change (if r_halo =? 0 then nthZ [] halo r else held (dom_bc (Dr r)) []) with (held (dom_bc (Dr r)) []) in FV1.
    pose proof (cs_bc _ _ (CS r Hr)) as WB. pose proof (settings11 dim SIZE cells nodes labels epart st VM RP CS (open_sides dim) [] (open_valid dim) r Hr) as SO.
    destruct (full_update (dom_bc (Dr r)) (open_sides dim) [] WB (distinct11 dim SIZE cells nodes labels epart st RP CS r Hr) SO _ v1 FV1) as (v2 & EU & FV2 & K2 & (LG & GU & _) & _).
    destruct (update_app (dom_bc (Dr r)) v1 z v2 L1 ltac:(rewrite B1; exact RF) EU) as (_ & L2 & v4 & E4 & H4 & C4 & _). exists v4, (va_heap v2), z. split; [exact E4|]. split; [exact H4|]. split; [exact C4|]. split; [exact L2|]. split; [exact Lz|]. split; [exact Vz|].
    split; [rewrite K2, EH1; change 2 with r_halo; rewrite nthZ_upd_eq by (unfold r_halo; lia); reflexivity|].
    intros i Hi Hn. pose proof (wm_dim _ _ _ (vm_mesh _ _ _ _ VM)) as Hd. destruct (names_len dim cells nodes labels epart r (Dr r) (PAr r Hr) (CS r Hr)) as (N1 & N2).
    assert (SL : exists l, In l (sides dim) /\ side_label l = nthZ 0 (dm_name (Dr r)) i).
    { set (k := nthZ 0 (dm_name (Dr r)) i) in *. destruct Hd as [-> | ->].
      - assert (k = 1 \/ k = 2 \/ k = 3 \/ k = 4) as [-> | [-> | [-> | ->]]] by lia; [exists LIn | exists LOut | exists LUpper | exists LBottom]; split; try reflexivity; cbn; tauto.
      - assert (k = 1 \/ k = 2 \/ k = 3 \/ k = 4 \/ k = 5 \/ k = 6) as [-> | [-> | [-> | [-> | [-> | ->]]]]] by lia; [exists LIn | exists LOut | exists LUpper | exists LBottom | exists LFront | exists LBack]; split; try reflexivity; cbn; tauto. }
    destruct SL as (l & Hl & El). rewrite (GU l BNeumann i); [|apply open_in; auto | cbn [dom_bc bd_name]; unfold isface in Hi; lia | unfold face_name; cbn [dom_bc bd_name]; congruence].
    unfold prescribed, held. cbn [fold_left]. set (j := left_cell (dom_bc (Dr r)) i). destruct (Z_lt_dec j 0) as [Hj|Hj].
    - unfold nthZ. replace (Z.to_nat j) with O by lia. destruct (map _ _) as [|y0 t] eqn:EM; [reflexivity|]. cbn [nth]. destruct (range (bd_nbcells (dom_bc (Dr r)))) in EM; [discriminate EM|]. injection EM as <- _. reflexivity.
    - destruct (Z_lt_dec j (zlen (range (bd_nbcells (dom_bc (Dr r)))))) as [Hj2|Hj2]; [rewrite (nthZ_map _ 0) by lia; reflexivity|]. unfold nthZ. apply nth_overflow. rewrite map_length. unfold zlen in Hj2. lia. }
  destruct (holding_intro (fun r => do D <- get Ds r; do v <- get l3 r; do h <- get halo r; do v <- write_array v r_halo h; update_ghost_value (dom_bc D) v) Q) as (l4 & E4 & L4 & HO & G4).
  { intros r Hr. destruct (STEP r Hr) as (v2 & v1 & z & E & H & C & L & Lz & Vz & _). exists v2, z. split; [exact E|]. split; [|auto]. unfold cell_of. rewrite H, C. replace 9 with (zlen v1). rewrite (get_nthZ []) by (rewrite zlen_app; change (zlen [z]) with 1; lia). f_equal. apply nthZ_app_last. }
  exists l3, l4. split; [exact E3|]. split; [unfold update_values; rewrite Ews; cbn [bind]; rewrite EH; cbn [bind]; exact E4|]. split; [exact HO|].
  intros r Hr. destruct (STEP r Hr) as (v2 & v1 & z & E & H & C & L & _ & _ & K2 & K3). destruct (G4 r Hr) as (v & Ev & EF). rewrite E in EF. injection EF as <-. exists v2, (nthZ [] halo r), (nthZ [] v1 3). split; [exact Ev|].
  split; [rewrite H, get_app by (unfold r_halo; lia); rewrite <- K2; apply get_nthZ; unfold r_halo; lia|]. split; [unfold ghost_of; rewrite H, get_app by (unfold r_ghost; lia); apply get_nthZ; unfold r_ghost; lia|]. split; [|exact K3].
  intros i Hi. rewrite (proj2 (HH r Hr) i Hi). reflexivity.
Qed.
End RanksV.
