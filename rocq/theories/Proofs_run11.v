(** * Proofs_run11: the collective calls update_values and interpolate_celltonode on all the ranks. *)
From Coq Require Import Reals Lra Permutation Sorted.
From Verif Require Import Py PyLemmas Model_part Spec_part Model_label Model_conn Spec_conn Proofs_conn1 Proofs_conn2 Model_geom Spec_geom Proofs_geom1 Proofs_geom2 Proofs_geom3
  Model_halo Spec_halo Model_interp Spec_interp Spec_lsq Proofs_lsq Properties_lsq Model_fvm Spec_fvm Model_bc Spec_bc Spec_bc3 Proofs_label Proofs_bc Proofs_bc2 Proofs_bc3 Properties_bc3 Model_domain Spec_domain Proofs_domain1 Proofs_domain4
  Model_comm Model_parallel Spec_parallel Proofs_parallel1 Proofs_parallel6 Properties_parallel Model_run Spec_run Proofs_run1 Proofs_run2 Proofs_run3 Proofs_run4 Proofs_run5 Proofs_run6 Spec_run2 Model_run2 Proofs_run7 Proofs_run8 Proofs_run9 Proofs_run10.
Open Scope Z_scope.

(** mapM over the ranks and a property of each result, by get *)
Lemma mapM_ranks {A} (f : Z -> res A) (P : Z -> A -> Prop) n : 0 < n -> (forall r, 0 <= r < n -> exists a, f r = Ok a /\ P r a) ->
  exists l, mapM f (range n) = Ok l /\ zlen l = n /\ forall r, 0 <= r < n -> exists a, get l r = Ok a /\ f r = Ok a /\ P r a.
Proof.
  intros Hn H. destruct (H 0 ltac:(lia)) as (d & _). destruct (mapM_range_ex d f (fun r a => f r = Ok a /\ P r a) n ltac:(lia)) as (l & E & L & Q); [intros r Hr; destruct (H r Hr) as (a & Ea & Pa); exists a; auto|].
  exists l. split; [exact E|]. split; [exact L|]. intros r Hr. exists (nthZ d l r). split; [apply get_nthZ; lia | apply Q; exact Hr].
Qed.

Section Ranks11.
Context (dim SIZE : Z) (cells : list (list Z)) (nodes : list pt) (labels npart0 epart : list Z) (st : setting).
Hypothesis VM : valid_mesh dim cells nodes labels.
Hypothesis PL : dim = 2 -> planar nodes.
Hypothesis VS : valid_split dim SIZE cells nodes npart0 epart.
Notation Ds := (se_domains st).
Notation Dr := (domain_of (se_domains st)).
Hypothesis RP : represents dim SIZE cells nodes labels epart Ds.
Hypothesis SC : star_connected dim cells.
Hypothesis CS : forall r, 0 <= r < SIZE -> consistent dim (Dr r).
Hypothesis HX : 1 < SIZE -> forall (V : Type) (d : V) (X : Z -> V) (w : list (list V)), values_of d SIZE Ds X w -> exists halo, update_halo_value SIZE (se_comms st) w = Ok halo /\ halo_values_of d SIZE Ds X halo.
Context (bc : list (loc * bctype)) (vs : list (loc * bcval)).
Hypothesis BV : bc_valid dim bc vs.
Hypothesis CW : corners_whole dim cells labels bc epart.
Hypothesis SP : spanned dim cells nodes.
Notation PAr := (rp_part _ _ _ _ _ _ _ RP).
Notation sees := (sees dim SIZE cells nodes labels Ds bc vs).
Notation fullr r := (vfull (dom_bc (Dr r)) bc vs).
Notation sizes := (Proofs_run5.sizes dim SIZE cells nodes labels epart st RP).

Lemma owners11 : forall c, iscell cells c -> 0 <= owner epart c < SIZE. Proof. intros c Hc. exact (proj2 (vs_owners _ _ _ _ _ _ VS) c Hc). Qed.
Lemma size11 : 1 <= SIZE. Proof. exact (vs_size _ _ _ _ _ _ VS). Qed.
Lemma dom11 r : 0 <= r < SIZE -> get Ds r = Ok (Dr r). Proof. exact (get_domain dim SIZE cells nodes labels epart st RP r). Qed.
Lemma dim11 r : 0 <= r < SIZE -> dm_dim (Dr r) = dim. Proof. intros Hr. exact (cs_dim _ _ (CS r Hr)). Qed.
Lemma settings11 r : 0 <= r < SIZE -> bc_settings (dom_bc (Dr r)) bc vs. Proof. intros Hr. exact (settings_ok dim cells nodes labels epart r (Dr r) VM (PAr r Hr) (CS r Hr) bc vs BV). Qed.
Lemma distinct11 r : 0 <= r < SIZE -> hg_distinct (dom_bc (Dr r)). Proof. intros Hr. exact (distinct dim SIZE cells nodes labels epart Ds RP CS r Hr). Qed.

(** the variables of the ranks hold the field X *)
Definition holds (X : Z -> R) (l : list variable) : Prop := exists ws, zlen l = SIZE /\ values_of 0%R SIZE Ds X ws /\ forall r, 0 <= r < SIZE -> exists v, get l r = Ok v /\ fullr r (nthZ [] ws r) v.
(** ... and their halos and ghosts are up to date *)
Definition shows (X : Z -> R) (l : list variable) : Prop := exists ws, zlen l = SIZE /\ values_of 0%R SIZE Ds X ws /\
  forall r, 0 <= r < SIZE -> exists v W, get l r = Ok v /\ fullr r (nthZ [] ws r) v /\ arrays v = Ok W /\ sees r X W.
Lemma shows_holds X l : shows X l -> holds X l.
Proof. intros (ws & L & V & H). exists ws. split; [exact L|]. split; [exact V|]. intros r Hr. destruct (H r Hr) as (v & W & E & F & _). exists v. split; assumption. Qed.
Lemma holds_cells X l : holds X l -> exists ws, mapM cell_of l = Ok ws /\ values_of 0%R SIZE Ds X ws.
Proof.
  intros (ws & LN & HV & HN). pose proof size11 as S1. exists ws. split; [|exact HV]. pose proof (proj1 HV) as LW. destruct (mapM_total cell_of l) as (m & E). { intros s Hs. destruct (get_In _ _ Hs) as (r & Hr & Eg). destruct (HN r ltac:(lia)) as (s' & Es & VI). rewrite Eg in Es. injection Es as <-. exists (nthZ [] ws r). exact (full_cell _ _ _ _ _ VI). }
  rewrite E. f_equal. pose proof (mapM_zlen _ _ _ E) as LL. apply (nthZ_ext [] m ws); [lia|]. intros r Hr. destruct (HN r ltac:(lia)) as (s' & Es & VI).
  assert (XE := mapM_nthZ _ l m s' [] r E ltac:(lia)). rewrite (get_nthZ s' l r) in Es by lia. injection Es as Es. rewrite Es, (full_cell _ _ _ _ _ VI) in XE. injection XE as <-. reflexivity.
Qed.
Lemma full_arrays r w v : fullr r w v -> arrays v = Ok {| w_c := w; w_ghost := nthZ [] (va_heap v) 3; w_halo := nthZ [] (va_heap v) 2; w_haloghost := nthZ [] (va_heap v) 4 |}.
Proof.
  intros F. pose proof (full_heap _ _ _ _ _ F) as L9. unfold arrays. rewrite (full_cell _ _ _ _ _ F). cbn [bind]. unfold ghost_of, r_ghost, r_halo, r_haloghost. rewrite !(get_nthZ []) by lia. reflexivity.
Qed.

Lemma update_values_full X l : holds X l -> exists l', update_values SIZE st l = Ok l' /\ shows X l'.
Proof.
  intros HH. pose proof size11 as S1. destruct (holds_cells X l HH) as (ws0 & EC & HV0). destruct HH as (ws & LN & HV & HN). unfold update_values. rewrite EC. cbn [bind].
  destruct (exchange_ok dim SIZE cells nodes labels npart0 epart st VS RP HX 0%R X ws0 HV0) as (halo & EH & LH & HHl). rewrite EH. cbn [bind].
  destruct (mapM_ranks (fun r => do D <- get Ds r; do v <- get l r; do h <- get halo r; do v <- write_array v r_halo h; update_ghost_value (dom_bc D) v)
    (fun r v => exists W, fullr r (nthZ [] ws r) v /\ arrays v = Ok W /\ sees r X W) SIZE ltac:(lia)) as (m & E & LL & HL).
  - intros r Hr. rewrite (dom11 r Hr). cbn [bind]. destruct (HN r Hr) as (v & Ev & VI). rewrite Ev. cbn [bind]. rewrite (get_nthZ []) by lia. cbn [bind]. destruct (HHl r Hr) as (HL & HVl).
    pose proof (settings11 r Hr) as SO. pose proof (distinct11 r Hr) as DI. pose proof (cs_bc _ _ (CS r Hr)) as WB. destruct (wb_size _ WB) as (Z1 & Z2 & Z3 & Z4). destruct (sizes r Hr) as (SZ1 & SZ2).
    assert (H9 := full_heap _ _ _ _ _ VI).
    destruct (full_write (dom_bc (Dr r)) bc vs _ v r_halo (nthZ [] halo r) VI) as (v1 & E1 & F1 & U1); [unfold r_halo; lia | rewrite HL; change (nthZ [] (vs_heap (init_state (dom_bc (Dr r)))) r_halo) with (zeros_like 0%R (bd_nbhalos (dom_bc (Dr r)))); rewrite zlen_zeros_like by exact Z3; cbn [dom_bc bd_nbhalos]; lia|].
    rewrite E1. cbn [bind]. change (r_halo =? 0) with false in F1. cbv iota in F1. destruct (full_update (dom_bc (Dr r)) bc vs WB DI SO _ v1 F1) as (v2 & E2 & F2 & H2 & G2 & HG2). exists v2. split; [exact E2|].
    eexists. split; [exact F2|]. split; [exact (full_arrays r _ _ F2)|]. destruct HV as (LW & HVr). destruct (HVr r Hr) as (LWr & HWr). assert (EH1 : nthZ [] (va_heap v1) 2 = nthZ [] halo r) by (rewrite U1; unfold r_halo; apply nthZ_upd_eq; lia). rewrite EH1 in HG2.
    assert (LWc : zlen (nthZ [] ws r) = zlen (dm_center (Dr r))) by (rewrite SZ1; exact LWr).
    constructor.
    + unfold wf_values. cbn [w_c w_ghost w_halo w_haloghost]. split; [exact LWc|]. split; [rewrite (proj1 G2); symmetry; exact (proj1 (proj2 (wb_len _ WB)))|]. split; [rewrite H2, EH1; lia | exact (proj1 HG2)].
    + exact HWr.
    + cbn [w_halo]. rewrite H2, EH1. exact HVl.
    + cbn [w_ghost]. exact (ghost_ok dim cells nodes labels epart r (Dr r) VM (PAr r Hr) (CS r Hr) bc vs BV _ _ _ X LWc HWr G2).
    + cbn [w_haloghost]. exact (haloghost_values dim SIZE cells nodes labels epart Ds VM PL RP CS bc vs BV CW r X _ _ Hr HVl HG2).
  - exists m. split; [exact E|]. exists ws. split; [exact LL|]. split; [exact HV|]. intros r Hr. destruct (HL r Hr) as (v & Ev & _ & W & H). exists v, W. split; [exact Ev | exact H].
Qed.

(** interpolate_celltonode *)
Definition node_values (X : Z -> R) (l : list variable) : Prop := forall r, 0 <= r < SIZE -> exists v n, get l r = Ok v /\ nthZ [] (va_heap v) r_node = n /\ zlen n = zlen (dm_nodeglob (Dr r)) /\
  forall k, isnode_of (Dr r) k -> nodal_value dim cells nodes labels bc vs X (gnode (Dr r) k) (nthZ 0%R n k).
Lemma node_rank_ok r X w v W : 0 <= r < SIZE -> fullr r w v -> arrays v = Ok W -> sees r X W -> exists v' n, node_rank (Dr r) v = Ok v' /\ fullr r w v' /\ arrays v' = Ok W /\
  nthZ [] (va_heap v') r_node = n /\ zlen n = zlen (dm_nodeglob (Dr r)) /\ forall k, isnode_of (Dr r) k -> nodal_value dim cells nodes labels bc vs X (gnode (Dr r) k) (nthZ 0%R n k).
Proof.
  intros Hr F EA SE. unfold node_rank. rewrite EA. cbn [bind]. rewrite (dim11 r Hr). pose proof (proj1 (nodes_len dim SIZE cells nodes labels epart Ds RP CS r Hr)) as NL.
  destruct (cs_nodes _ _ (CS r Hr)) as (WN & EV). destruct (C24_least_squares dim (dom_node (Dr r)) _ _ W WN (se_wf _ _ _ _ _ _ _ _ _ _ _ SE)) as (nvs & wn & E1 & E2 & _). rewrite EV in E1. injection E1 as <-.
  rewrite E2. cbn [bind]. assert (LN : zlen wn = zlen (dm_nodeglob (Dr r))). { unfold centertovertex in E2. apply mapM_zlen in E2. rewrite E2, zlen_range by apply zlen_nonneg. exact NL. }
  destruct (known_ok 0%R wn (fun k v => nodal_value dim cells nodes labels bc vs X (gnode (Dr r) k) v)) as (n & EK & LK & HK).
  { intros k Hk. destruct (node_value_ok dim SIZE cells nodes labels epart Ds VM PL RP SC owners11 CS bc vs SP r X W k Hr SE ltac:(unfold isnode_of; lia)) as (wn' & x & E3 & E4 & E5). rewrite E2 in E3. injection E3 as <-. exists x. split; assumption. }
  rewrite EK. cbn [bind]. destruct (wb_size _ (cs_bc _ _ (CS r Hr))) as (_ & Z2 & _).
  destruct (full_write (dom_bc (Dr r)) bc vs _ v r_node n F) as (v' & E' & F' & U'); [unfold r_node; lia | rewrite LK, LN; change (nthZ [] (vs_heap (init_state (dom_bc (Dr r)))) r_node) with (zeros_like 0%R (bd_nbnodes (dom_bc (Dr r)))); rewrite zlen_zeros_like by exact Z2; symmetry; exact NL|].
  change (r_node =? 0) with false in F'. cbv iota in F'. exists v', n. split; [exact E'|]. split; [exact F'|]. pose proof (full_heap _ _ _ _ _ F) as H9. split; [|split; [|split]].
  - rewrite (full_arrays r _ _ F'), U'. rewrite (full_arrays r _ _ F) in EA. injection EA as <-. unfold r_node. rewrite !nthZ_upd_neq by lia. reflexivity.
  - rewrite U'. unfold r_node. apply nthZ_upd_eq. lia.
  - lia.
  - intros k Hk. apply HK. unfold isnode_of in Hk. lia.
Qed.
Lemma interpolate_ok X l : holds X l -> exists l', interpolate_celltonode SIZE st l = Ok l' /\ shows X l' /\ node_values X l'.
Proof.
  intros HH. pose proof size11 as S1. destruct (update_values_full X l HH) as (l1 & E1 & (ws & L1 & V1 & H1)). unfold interpolate_celltonode. rewrite E1. cbn [bind].
  destruct (mapM_ranks (fun r => do D <- get Ds r; do v <- get l1 r; node_rank D v) (fun r v => exists W n, fullr r (nthZ [] ws r) v /\ arrays v = Ok W /\ sees r X W /\
     nthZ [] (va_heap v) r_node = n /\ zlen n = zlen (dm_nodeglob (Dr r)) /\ forall k, isnode_of (Dr r) k -> nodal_value dim cells nodes labels bc vs X (gnode (Dr r) k) (nthZ 0%R n k)) SIZE ltac:(lia)) as (m & E & LL & HL).
  - intros r Hr. rewrite (dom11 r Hr). cbn [bind]. destruct (H1 r Hr) as (v & W & Ev & F & EA & SE). rewrite Ev. cbn [bind]. destruct (node_rank_ok r X _ v W Hr F EA SE) as (v' & n & E' & F' & EA' & R). exists v'. split; [exact E'|]. exists W, n. auto.
  - exists m. split; [exact E|]. split.
    + exists ws. split; [exact LL|]. split; [exact V1|]. intros r Hr. destruct (HL r Hr) as (v & Ev & _ & W & n & F & EA & SE & _). exists v, W. auto.
    + intros r Hr. destruct (HL r Hr) as (v & Ev & _ & W & n & F & EA & SE & R). exists v, n. split; [exact Ev | exact R].
Qed.
End Ranks11.
