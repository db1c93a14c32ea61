(** * Proofs_run16: histories of a variable. *)
From Coq Require Import Reals Lra Permutation Sorted.
From Verif Require Import Py PyLemmas Model_part Spec_part Model_label Model_conn Spec_conn Proofs_conn1 Proofs_conn2 Model_geom Spec_geom Proofs_geom1 Proofs_geom2 Proofs_geom3
  Model_halo Spec_halo Model_interp Spec_interp Proofs_interp4 Proofs_interp5 Proofs_interp6 Spec_lsq Proofs_lsq Properties_lsq Model_fvm Spec_fvm Proofs_fvm1 Proofs_fvm2 Properties_fvm Model_bc Spec_bc Spec_bc3 Proofs_label Proofs_bc Proofs_bc2 Proofs_bc3 Properties_bc3 Model_domain Spec_domain Proofs_domain1 Proofs_domain4
  Model_comm Model_parallel Spec_parallel Proofs_parallel1 Proofs_parallel6 Properties_parallel Model_run Spec_run Proofs_run1 Proofs_run2 Proofs_run3 Proofs_run4 Proofs_run5 Proofs_run6 Spec_run2 Model_run2 Proofs_run7 Proofs_run8 Proofs_run9 Proofs_run10 Proofs_run11 Proofs_run12 Proofs_run13 Proofs_run14 Proofs_run15 Spec_run3.
Open Scope Z_scope.

Lemma mapM_get {A B} (f : A -> res B) l m r a : mapM f l = Ok m -> get l r = Ok a -> 0 <= r < zlen l -> exists b, get m r = Ok b /\ f a = Ok b.
Proof.
  intros E G Hr. pose proof (mapM_zlen _ _ _ E) as L. rewrite (get_nthZ a) in G by exact Hr. injection G as G.
  destruct m as [|b0 m'] eqn:Em; [cbn in L; unfold zlen in *; cbn in *; lia|]. rewrite <- Em in *. exists (nthZ b0 m r). split; [apply get_nthZ; lia|]. rewrite <- G. apply (mapM_nthZ f l m a b0 r E Hr).
Qed.
Lemma mapM_rank {B} (f : Z -> res B) n m r : mapM f (range n) = Ok m -> 0 <= r < n -> zlen m = n /\ exists b, get m r = Ok b /\ f r = Ok b.
Proof.
  intros E Hr. split; [rewrite (mapM_zlen _ _ _ E), zlen_range; lia|]. apply (mapM_get f (range n) m r r E); [|rewrite zlen_range; lia]. rewrite (get_nthZ 0) by (rewrite zlen_range; lia). rewrite nthZ_range by lia. reflexivity.
Qed.

Lemma get_ok_nthZ {A} (d : A) l r x : get l r = Ok x -> 0 <= r -> r < zlen l /\ x = nthZ d l r.
Proof.
  intros E Hr. unfold get in E. replace (r <? 0) with false in E by lia. cbv zeta in E. replace (r <? 0) with false in E by lia. destruct (nth_error l (Z.to_nat r)) as [y|] eqn:EE; [|discriminate E]. injection E as <-. assert (Z.to_nat r < length l)%nat by (apply nth_error_Some; congruence).
  split; [unfold zlen; lia|]. unfold nthZ. symmetry. apply nth_error_nth. exact EE.
Qed.
Section Ranks16.
Context (dim SIZE : Z) (cells : list (list Z)) (nodes : list pt) (labels npart0 epart : list Z) (st : setting).
Hypothesis VM : valid_mesh dim cells nodes labels.
Hypothesis PL : dim = 2 -> planar nodes.
Hypothesis VS : valid_split dim SIZE cells nodes npart0 epart.
Notation Ds := (se_domains st).
Notation Dr := (domain_of (se_domains st)).
Hypothesis RP : represents dim SIZE cells nodes labels epart Ds.
Hypothesis SC : star_connected dim cells.
Hypothesis CS : forall r, 0 <= r < SIZE -> consistent dim (Dr r).
Hypothesis HX : 1 < SIZE -> forall (V : Type) (d : V) (X : Z -> V) (w : list (list V)), values_of d SIZE Ds X w -> exists halo, update_halo_value SIZE (se_comms st) w = Ok halo /\ halo_values_of d SIZE Ds X halo.
Context (bc : list (loc * bctype)) (vs : list (loc * bcval)).
Hypothesis BV : bc_valid dim bc vs.
Hypothesis CW : corners_whole dim cells labels bc epart.
Hypothesis SP : spanned dim cells nodes.
Notation PAr := (rp_part _ _ _ _ _ _ _ RP).
Notation shows := (shows dim SIZE cells nodes labels st bc vs).
Notation holds := (holds SIZE st bc vs).
Notation history := (history bc vs SIZE st).
Notation holding := (holding SIZE st).
Notation sizes := (Proofs_run5.sizes dim SIZE cells nodes labels epart st RP).
Notation size1 := (size11 dim SIZE cells nodes npart0 epart VS).

Lemma holds_holding X l : holds X l -> holding X l.
Proof. exact (holds_cells dim SIZE cells nodes npart0 epart st VS bc vs X l). Qed.
(** values of the ranks give a field; the values determine what is held *)
Lemma holds_from l ws : zlen l = SIZE -> zlen ws = SIZE -> (forall r, 0 <= r < SIZE -> zlen (nthZ [] ws r) = zlen (dm_loctoglob (Dr r))) ->
  (forall r, 0 <= r < SIZE -> exists v, get l r = Ok v /\ vfull (dom_bc (Dr r)) bc vs (nthZ [] ws r) v) -> exists X, holds X l.
Proof.
  intros L LW LR H. destruct (field_of dim SIZE cells nodes labels epart st RP 0%R ws LW LR) as (X & HV). exists X, ws. auto.
Qed.
Lemma holds_any X X' l : holds X l -> holding X' l -> holds X' l.
Proof.
  intros HH (ws' & E' & V'). pose proof (holds_holding X l HH) as (ws0 & E0 & V0). rewrite E0 in E'. injection E' as <-. destruct HH as (ws & L & V & H). pose proof size1.
  assert (ws0 = ws). { destruct V0 as (L0 & _), V as (L1 & _). apply (nthZ_ext []); [lia|]. intros r Hr. destruct (H r ltac:(lia)) as (v & Ev & FV). destruct (mapM_get _ _ _ r v E0 Ev ltac:(lia)) as (b & Eb & Eb'). rewrite (full_cell _ _ _ _ _ FV) in Eb'. injection Eb' as <-. rewrite (get_nthZ []) in Eb by lia. injection Eb as <-. reflexivity. }
  subst ws0. exists ws. auto.
Qed.
Lemma history_holds l : history l -> exists X, holds X l.
Proof.
  pose proof size1 as S1. induction 1 as [l E|l w l' _ (X & HX0) SW E|l l' _ (X & HX0) E|l l' _ (X & HX0) E|l l' gs _ (X & HX0) E|l g l' gs _ (X & HX0) E].
  - apply (holds_from l (map (fun r => held (dom_bc (Dr r)) []) (range SIZE))).
    + rewrite (mapM_zlen _ _ _ E), zlen_range; lia.
    + rewrite zlen_map, zlen_range; lia.
    + intros r Hr. rewrite (nthZ_map _ 0) by (rewrite zlen_range; lia). rewrite nthZ_range by lia. unfold held. cbn [fold_left]. destruct (wb_size _ (cs_bc _ _ (CS r Hr))) as (Q & _). rewrite zlen_map, zlen_range by exact Q. cbn [dom_bc bd_nbcells]. apply sizes. exact Hr.
    + intros r Hr. destruct (mapM_rank _ _ _ r E Hr) as (_ & v & Ev & EN). exists v. split; [exact Ev|]. rewrite (nthZ_map _ 0) by (rewrite zlen_range; lia). rewrite nthZ_range by lia.
      rewrite (dom11 dim SIZE cells nodes labels epart st RP r Hr) in EN. cbn [bind] in EN.
      destruct (full_new (dom_bc (Dr r)) bc vs (cs_bc _ _ (CS r Hr)) (distinct11 dim SIZE cells nodes labels epart st RP CS r Hr) (settings11 dim SIZE cells nodes labels epart st VM RP CS bc vs BV r Hr)) as (v' & Ev' & FV). rewrite EN in Ev'. injection Ev' as <-. exact FV.
  - destruct HX0 as (ws & L & V & H).
    assert (Q : forall r, 0 <= r < SIZE -> exists v, get l' r = Ok v /\ exists x, get w r = Ok x /\ vfull (dom_bc (Dr r)) bc vs x v).
    { intros r Hr. destruct (mapM_rank _ _ _ r E Hr) as (_ & v' & Ev' & EN). exists v'. split; [exact Ev'|]. destruct (H r Hr) as (v & Ev & FV). rewrite Ev in EN. cbn [bind] in EN. destruct (get w r) as [x|] eqn:Ex; [|discriminate EN]. cbn [bind] in EN. exists x. split; [reflexivity|].
      assert (LX : zlen x = zlen (dm_center (Dr r))) by (rewrite <- (SW r Hr), (proj2 (get_ok_nthZ [] w r x Ex ltac:(lia))); reflexivity).
      destruct (wb_size _ (cs_bc _ _ (CS r Hr))) as (Q & _). rewrite (full_ref _ _ _ _ _ FV) in EN.
      destruct (full_write (dom_bc (Dr r)) bc vs _ v 0 x FV) as (v2 & EW & FV' & _); [lia | change (nthZ [] (vs_heap (init_state (dom_bc (Dr r)))) 0) with (zeros_like 0%R (bd_nbcells (dom_bc (Dr r)))); rewrite zlen_zeros_like by exact Q; exact LX|].
      rewrite EN in EW. injection EW as <-. exact FV'. }
    apply (holds_from l' (map (fun r => nthZ [] w r) (range SIZE))).
    + rewrite (mapM_zlen _ _ _ E), zlen_range; lia.
    + rewrite zlen_map, zlen_range; lia.
    + intros r Hr. rewrite (nthZ_map _ 0) by (rewrite zlen_range; lia). rewrite nthZ_range by lia. rewrite (SW r Hr). apply sizes. exact Hr.
    + intros r Hr. rewrite (nthZ_map _ 0) by (rewrite zlen_range; lia). rewrite nthZ_range by lia. destruct (Q r Hr) as (v & Ev & x & Ex & FV). exists v. split; [exact Ev|]. rewrite <- (proj2 (get_ok_nthZ [] w r x Ex ltac:(lia))). exact FV.
  - destruct (update_values_full dim SIZE cells nodes labels npart0 epart st VM PL VS RP CS HX bc vs BV CW X l HX0) as (l2 & E2 & H2). rewrite E in E2. injection E2 as <-. exists X. exact (shows_holds _ _ _ _ _ _ _ _ _ _ H2).
  - destruct (interpolate_ok dim SIZE cells nodes labels npart0 epart st VM PL VS RP SC CS HX bc vs BV CW SP X l HX0) as (l2 & E2 & H2 & _). rewrite E in E2. injection E2 as <-. exists X. exact (shows_holds _ _ _ _ _ _ _ _ _ _ H2).
  - destruct (cell_gradient_ok dim SIZE cells nodes labels npart0 epart st VM PL VS RP SC CS HX bc vs BV CW SP X l HX0) as (l2 & gs2 & Sl & Ps & E2 & H2 & _). rewrite E in E2. injection E2 as <- _. exists X. exact (shows_holds _ _ _ _ _ _ _ _ _ _ H2).
  - destruct (interpolate_ok dim SIZE cells nodes labels npart0 epart st VM PL VS RP SC CS HX bc vs BV CW SP X l HX0) as (l2 & E2 & H2 & _). unfold compute_face_gradient in E. rewrite E2 in E. cbn [bind] in E. apply bind_ok in E as (g' & _ & E). injection E as <- _. exists X. exact (shows_holds _ _ _ _ _ _ _ _ _ _ H2).
Qed.
Lemma history_holds_all l X : history l -> holding X l -> holds X l.
Proof. intros H. destruct (history_holds l H) as (X' & HX'). apply (holds_any X'). exact HX'. Qed.
(** any field can be assigned *)
Lemma history_any X w : values_of 0%R SIZE Ds X w -> exists l, history l /\ holding X l.
Proof.
  intros HV. pose proof size1 as S1. pose proof HV as (LW & HV').
  destruct (mapM_ranks (fun r => do D <- get Ds r; new_variable (dom_bc D) (Some bc) (Some vs)) (fun r v => exists w0, vfull (dom_bc (Dr r)) bc vs w0 v) SIZE ltac:(lia)) as (l & E & L & H).
  { intros r Hr. rewrite (dom11 dim SIZE cells nodes labels epart st RP r Hr). cbn [bind]. destruct (full_new (dom_bc (Dr r)) bc vs (cs_bc _ _ (CS r Hr)) (distinct11 dim SIZE cells nodes labels epart st RP CS r Hr) (settings11 dim SIZE cells nodes labels epart st VM RP CS bc vs BV r Hr)) as (v' & Ev' & FV). exists v'. split; [exact Ev' | eexists; exact FV]. }
  pose proof (h_created bc vs SIZE st l E) as H0.
  destruct (mapM_ranks (fun r => do v <- get l r; do x <- get w r; write_array v (va_cell v) x) (fun r v => vfull (dom_bc (Dr r)) bc vs (nthZ [] w r) v) SIZE ltac:(lia)) as (l' & E' & L' & H').
  { intros r Hr. destruct (H r Hr) as (v & Ev & _ & w0 & FV). rewrite Ev. cbn [bind]. rewrite (get_nthZ []) by lia. cbn [bind]. rewrite (full_ref _ _ _ _ _ FV). destruct (wb_size _ (cs_bc _ _ (CS r Hr))) as (Q & _).
    destruct (full_write (dom_bc (Dr r)) bc vs _ v 0 (nthZ [] w r) FV) as (v2 & EW & FV' & _); [lia | change (nthZ [] (vs_heap (init_state (dom_bc (Dr r)))) 0) with (zeros_like 0%R (bd_nbcells (dom_bc (Dr r)))); rewrite zlen_zeros_like by exact Q; cbn [dom_bc bd_nbcells]; rewrite (proj1 (HV' r Hr)); symmetry; apply sizes; exact Hr|].
    exists v2. split; [exact EW | exact FV']. }
  exists l'. split.
  - apply (h_assigned bc vs SIZE st l w l' H0); [|exact E']. intros r Hr. rewrite (proj1 (HV' r Hr)). symmetry. apply sizes. exact Hr.
  - apply holds_holding. exists w. split; [exact L'|]. split; [exact HV|]. intros r Hr. destruct (H' r Hr) as (v & Ev & _ & FV). exists v. auto.
Qed.

Lemma shown_nodes X l : shows X l -> node_values dim SIZE cells nodes labels st bc vs X l -> exists N, node_field SIZE st N l /\ forall c g, iscell cells c -> In g (cell cells c) -> nodal_value dim cells nodes labels bc vs X g (N g).
Proof.
  intros HS NV. destruct (nodes_field dim SIZE cells nodes labels npart0 epart st VM VS RP bc vs X l NV) as (N & HN & NR). exists N. split; [|exact HN].
  intros r Hr D. destruct (NR r Hr) as (v & Ev & LN & HNr). destruct HS as (ws & _ & _ & HS). destruct (HS r Hr) as (v' & W & Ev' & FV & _). rewrite Ev in Ev'. injection Ev' as <-. exists v, (nthZ [] (va_heap v) r_node). split; [exact Ev|]. split; [apply get_nthZ; rewrite (full_heap _ _ _ _ _ FV); unfold r_node; lia|].
  split; [|exact HNr]. destruct (pa_sizes _ _ _ _ _ _ _ (PAr r Hr)) as (_ & _ & _ & _ & _ & _ & SV & _). unfold D. lia.
Qed.
Lemma interpolated X l : history l -> holding X l -> exists l' N, interpolate_celltonode SIZE st l = Ok l' /\ holding X l' /\ node_field SIZE st N l' /\
  forall c g, iscell cells c -> In g (cell cells c) -> nodal_value dim cells nodes labels bc vs X g (N g).
Proof.
  intros H0 H1. destruct (interpolate_ok dim SIZE cells nodes labels npart0 epart st VM PL VS RP SC CS HX bc vs BV CW SP X l (history_holds_all l X H0 H1)) as (l' & E & HS & NV).
  destruct (shown_nodes X l' HS NV) as (N & HN & HV). exists l', N. split; [exact E|]. split; [exact (holds_holding _ _ (shows_holds _ _ _ _ _ _ _ _ _ _ HS))|]. split; assumption.
Qed.
Lemma cell_gradients X l : history l -> holding X l -> exists l' gs Sl Ps, compute_cell_gradient SIZE st l = Ok (l', gs) /\ holding X l' /\ cell_fields SIZE st Sl Ps gs /\
  forall c, iscell cells c -> cell_slope dim cells nodes labels bc vs X c (Sl c) /\ limiter dim cells nodes labels bc vs X (Sl c) c (Ps c).
Proof.
  intros H0 H1. destruct (cell_gradient_ok dim SIZE cells nodes labels npart0 epart st VM PL VS RP SC CS HX bc vs BV CW SP X l (history_holds_all l X H0 H1)) as (l' & gs & Sl & Ps & E & HS & HC & (LG & HG)).
  exists l', gs, Sl, Ps. split; [exact E|]. split; [exact (holds_holding _ _ (shows_holds _ _ _ _ _ _ _ _ _ _ HS))|]. split; [|exact HC]. split; [exact LG|]. intros r Hr D. destruct (HG r Hr) as (G & EG & (L1 & L2 & L3 & L4) & Q1 & Q2). exists G. split; [exact EG|]. destruct (sizes r Hr) as (SZ & _).
  unfold D. split; [lia|]. split; [lia|]. split; [lia|]. split; [lia|]. split; [exact Q1 | exact Q2].
Qed.
Lemma face_gradients X l g : history l -> holding X l -> (forall r, 0 <= r < SIZE -> exists x, get g r = Ok x /\ zlen x = zlen (dm_cellid (Dr r))) ->
  exists l' gs N G, compute_face_gradient SIZE st l g = Ok (l', gs) /\ holding X l' /\ face_field dim cells SIZE st G gs /\
  (forall c k, iscell cells c -> In k (cell cells c) -> nodal_value dim cells nodes labels bc vs X k (N k)) /\
  (forall c F, iscell cells c -> In F (facets (cell cells c)) -> facet_slope dim cells nodes labels bc vs X N c F (G c F)).
Proof.
  intros H0 H1 HG0. destruct (face_gradient_all dim SIZE cells nodes labels npart0 epart st VM PL VS RP SC CS HX bc vs BV CW SP X l g (history_holds_all l X H0 H1) HG0) as (l' & gs & N & G & E & HS & HN & HF & (LG & HG)).
  exists l', gs, N, G. split; [exact E|]. split; [exact (holds_holding _ _ (shows_holds _ _ _ _ _ _ _ _ _ _ HS))|]. split; [|split; [exact HN | exact HF]]. split; [exact LG|]. intros r Hr D. destruct (HG r Hr) as (x & Ex & Lx & Q). exists x. split; [exact Ex|]. split; [exact Lx|].
  intros c f F Hc HFc HGf. rewrite <- (fset_eq dim cells (Dr r) f F _ HFc HGf). apply Q; [exact Hc|]. apply (pa_cellfaces _ _ _ _ _ _ _ (PAr r Hr) c f F Hc HGf). apply HFc.
Qed.
End Ranks16.
