(** * Proofs_poisson6: the linear system of all the ranks (C74). *)
From Coq Require Import Reals Lra Permutation Sorted.
From Verif Require Import Py PyLemmas Model_part Spec_part Model_label Model_conn Spec_conn Proofs_conn1 Proofs_conn2 Model_geom Spec_geom Proofs_geom1 Proofs_geom2 Proofs_geom3
  Model_halo Spec_halo Model_interp Spec_interp Proofs_interp4 Proofs_interp5 Proofs_interp6 Spec_lsq Proofs_lsq Properties_lsq Model_fvm Spec_fvm Proofs_fvm1 Proofs_fvm2 Properties_fvm Model_bc Spec_bc Spec_bc3 Proofs_label Proofs_bc Proofs_bc2 Proofs_bc3 Properties_bc3 Model_domain Spec_domain Proofs_domain1 Proofs_domain4
  Model_comm Model_parallel Spec_parallel Proofs_parallel1 Proofs_parallel6 Properties_parallel Model_run Spec_run Proofs_run1 Proofs_run2 Proofs_run3 Proofs_run4 Proofs_run5 Proofs_run6 Spec_run2 Model_run2 Proofs_run7 Proofs_run8 Proofs_run9 Proofs_run10 Proofs_run11 Proofs_run12 Proofs_run13 Proofs_run14 Proofs_run15 Spec_run3 Proofs_run16 Model_poisson Spec_poisson Proofs_poisson1 Proofs_poisson2 Proofs_poisson3 Spec_poisson2 Proofs_poisson4 Proofs_poisson5.
From Verif Require Model_linsys Spec_linsys Properties_linsys Proofs_periodic Proofs_linsys1 Proofs_linsys5 Proofs_part2 Proofs_comm.
Open Scope Z_scope.

Section Ranks6.
Context (dim SIZE : Z) (cells : list (list Z)) (nodes : list pt) (labels npart0 epart : list Z) (st : setting).
Hypothesis VM : valid_mesh dim cells nodes labels.
Hypothesis PL : dim = 2 -> planar nodes.
Hypothesis VS : valid_split dim SIZE cells nodes npart0 epart.
Notation Ds := (se_domains st).
Notation Dr := (domain_of (se_domains st)).
Hypothesis RP : represents dim SIZE cells nodes labels epart Ds.
Hypothesis SC : star_connected dim cells.
Hypothesis CS : forall r, 0 <= r < SIZE -> consistent dim (Dr r).
Context (bc : list (loc * bctype)) (vs : list (loc * bcval)).
Hypothesis BV : bc_valid dim bc vs.
Hypothesis SP : spanned dim cells nodes.
Notation PAr := (rp_part _ _ _ _ _ _ _ RP).
Notation holds := (holds SIZE st bc vs).
Notation sizes := (Proofs_run5.sizes dim SIZE cells nodes labels epart st RP).
Notation size1 := (size11 dim SIZE cells nodes npart0 epart VS).
Notation owners := (owners11 dim SIZE cells nodes npart0 epart VS).
Notation gc r := (gcell (Dr r)).
Notation gs := (zlen cells).
Notation sok := (system_ok dim cells nodes labels epart Ds bc vs).
Notation rank_of := (rank_of dim SIZE cells nodes labels npart0 epart st VS RP).
Notation get_dom := (dom11 dim SIZE cells nodes labels epart st RP).

(** every field has values at the nodes *)
Lemma node_values_exist X : exists N, node_values dim cells nodes labels bc vs X N.
Proof.
  destruct (finite_choice 0%R (zlen nodes) (fun g v => forall c, iscell cells c -> In g (cell cells c) -> node_value dim cells nodes labels bc vs X g v) (zlen_nonneg _)) as (N & HQ).
  - intros g Hg. destruct (existsb (fun c => mem g (cell cells c)) (range (zlen cells))) eqn:E.
    + apply existsb_exists in E as (c & Hc & Hm). apply in_range in Hc. apply mem_In in Hm. unfold node_value. destruct (node_fixed nodes labels bc vs g) as [y|]; [exists y; auto|]. destruct (rank_of c Hc) as (r & a & Hr & Ha & <-).
      destruct (field_seen dim SIZE cells nodes labels epart Ds RP CS r X Hr) as (W & SE & _).
      destruct (pa_cell _ _ _ _ _ _ _ (PAr r Hr) a Ha) as (PC & _). apply (Permutation_in _ (Permutation_sym PC)) in Hm. apply in_map_iff in Hm as (k & <- & Hk). pose proof (proj1 (pa_numbers _ _ _ _ _ _ _ (PAr r Hr)) a Ha) as NB. rewrite Forall_forall in NB.
      destruct (node_value_ok dim SIZE cells nodes labels epart Ds VM PL RP SC owners CS [] [] SP r X W k Hr SE (NB k Hk)) as (_ & v & _ & _ & HV). exists v. intros _ _ _. exact HV.
    + exists 0%R. intros c Hc Hm. exfalso. assert (X0 : existsb (fun c => mem g (cell cells c)) (range (zlen cells)) = true) by (apply existsb_exists; exists c; split; [apply in_range; exact Hc | apply mem_In; exact Hm]). congruence.
  - exists N. intros c g Hc Hg. apply (HQ g) with (c := c); [|exact Hc | exact Hg]. destruct (wm_rows _ _ _ (vm_mesh _ _ _ _ VM) (cell cells c) ltac:(apply nthZ_In; exact Hc)) as (_ & _ & B). apply B. exact Hg.
Qed.
(** the sizes *)
Lemma domains_map {A} (f : domain -> A) : map f Ds = map (fun r => f (Dr r)) (range SIZE).
Proof.
  pose proof size1. pose proof (rp_count _ _ _ _ _ _ _ RP) as LC. destruct Ds as [|D0 q] eqn:ED; [cbn in LC; unfold zlen in LC; cbn in LC; lia|]. rewrite <- ED in *. apply (nthZ_ext (f D0)); [rewrite !zlen_map, zlen_range; lia|]. intros r Hr. rewrite zlen_map in Hr.
  rewrite (nthZ_map _ D0) by lia. rewrite (nthZ_map _ 0) by (rewrite zlen_range; lia). rewrite nthZ_range by lia. f_equal. unfold domain_of. apply nthZ_indep. lia.
Qed.
Lemma all_cells : Permutation (concat (map (fun r => dm_loctoglob (Dr r)) (range SIZE))) (range gs).
Proof.
  assert (E : map (fun r => dm_loctoglob (Dr r)) (range SIZE) = map (owned cells epart) (range SIZE)) by (apply map_ext_in; intros r Hr; apply in_range in Hr; exact (pa_cells _ _ _ _ _ _ _ (PAr r Hr))).
  rewrite E. apply NoDup_Permutation; [apply Proofs_part2.concat_owned_NoDup; pose proof size1; lia | apply NoDup_range|].
  intros x; rewrite in_concat, in_range. split.
  - intros (l & Hl & Hx). apply in_map_iff in Hl as (i & <- & Hi). apply Proofs_part2.owned_In in Hx. apply Hx.
  - intros Hx. exists (owned cells epart (owner epart x)). split; [apply in_map_iff; exists (owner epart x); split; [reflexivity|]; apply in_range; apply owners; exact Hx | apply Proofs_part2.owned_In; split; [exact Hx | reflexivity]].
Qed.
Lemma global_size_ok : global_size st = gs.
Proof.
  unfold global_size. rewrite (domains_map (fun D => zlen (dm_center D))). rewrite (map_ext_in _ (fun r => zlen (dm_loctoglob (Dr r)))) by (intros r Hr; apply in_range in Hr; apply sizes; exact Hr). rewrite <- (length_concat_sum (fun r => dm_loctoglob (Dr r))). 
  unfold zlen at 1. rewrite (Permutation_length all_cells). fold (zlen (range gs)). apply zlen_range. apply zlen_nonneg.
Qed.

(** ** The systems of all the ranks *)
Record pack := Pack { k_v : variable; k_B : Model_linsys.bord; k_n : Z; k_es : list Model_linsys.entry; k_rhs : list (option R); k_glob : list (option R) }.
Definition packed (l : list variable) (P : Z -> pack) : Prop := forall r, 0 <= r < SIZE -> get l r = Ok (k_v (P r)) /\ (exists w, vfull (dom_bc (Dr r)) bc vs w (k_v (P r))) /\ sok r (k_v (P r)) (k_B (P r)) (k_n (P r)) (k_es (P r)) (k_rhs (P r)) (k_glob (P r)).
Lemma packs l X0 : holds X0 l -> exists P, packed l P.
Proof.
  intros (ws & L & HV & H). pose proof size1. destruct (H 0 ltac:(lia)) as (v0 & _ & _).
  apply (finite_choice (Pack v0 {| Model_linsys.pb_node := []; Model_linsys.pb_face := [] |} 0 [] [] []) SIZE (fun r k => get l r = Ok (k_v k) /\ (exists w, vfull (dom_bc (Dr r)) bc vs w (k_v k)) /\ sok r (k_v k) (k_B k) (k_n k) (k_es k) (k_rhs k) (k_glob k))); [lia|].
  intros r Hr. destruct (H r Hr) as (v & Ev & FV). destruct (system_rank dim SIZE cells nodes labels epart Ds VM PL RP SC SP owners CS bc vs BV r _ v Hr FV) as (B & n & es & rhs & glob & SO).
  exists (Pack v B n es rhs glob). split; [exact Ev|]. split; [eexists; exact FV | exact SO].
Qed.

Section Packed.
Context (l : list variable) (P : Z -> pack).
Hypothesis HP : packed l P.
Lemma assemble_ok : assemble SIZE st l = Ok (map (fun r => k_es (P r)) (range SIZE)).
Proof.
  unfold assemble. apply mapM_ok. intros r Hr. apply in_range in Hr. destruct (HP r Hr) as (Ev & _ & SO). rewrite (get_dom r Hr). cbn [bind]. rewrite Ev. cbn [bind]. rewrite (dim11 dim SIZE st CS r Hr). exact (so_entries _ _ _ _ _ _ _ _ _ _ _ _ _ _ _ SO).
Qed.
Lemma rhs_exists : exists B0 : Z -> R, (forall r c, 0 <= r < SIZE -> iscell_of (Dr r) c -> nthZ None (k_rhs (P r)) c = Some (B0 (gc r c))).
Proof.
  destruct (node_values_exist (fun _ => 0%R)) as (N & HN).
  destruct (finite_choice 0%R gs (fun g b => forall r c, 0 <= r < SIZE -> iscell_of (Dr r) c -> gc r c = g -> nthZ None (k_rhs (P r)) c = Some b) (zlen_nonneg _)) as (B0 & HB).
  - intros g Hg. destruct (rank_of g Hg) as (r & a & Hr & Ha & Ea). destruct (HP r Hr) as (_ & _ & SO). destruct (so_flux _ _ _ _ _ _ _ _ _ _ _ _ _ _ _ SO _ N a HN Ha) as (_ & b & _ & _ & Eb & _). exists b. intros r' c Hr' Hc Ec.
    pose proof (proj2 (gcell_owned dim cells nodes labels epart r _ (PAr r Hr) a Ha)) as O1. pose proof (proj2 (gcell_owned dim cells nodes labels epart r' _ (PAr r' Hr') c Hc)) as O2. rewrite Ec, <- Ea, O1 in O2. subst r'. rewrite (gcell_inj dim cells nodes labels epart r (Dr r) (PAr r Hr) c a Hc Ha) by congruence. exact Eb.
  - exists B0. intros r c Hr Hc. apply (HB (gc r c)); auto. apply (gcell_owned dim cells nodes labels epart r _ (PAr r Hr) c Hc).
Qed.
Lemma globs B0 g : (forall r c, 0 <= r < SIZE -> iscell_of (Dr r) c -> nthZ None (k_rhs (P r)) c = Some (B0 (gc r c))) -> iscell cells g ->
  nthZ None (k_glob (P (owner epart g))) g = Some (B0 g) /\ forall r, 0 <= r < SIZE -> r <> owner epart g -> nthZ None (k_glob (P r)) g = Some 0%R.
Proof.
  intros HB Hg. split.
  - pose proof (owners g Hg) as Ho. destruct (gcell_onto dim cells nodes labels epart _ (Dr (owner epart g)) (PAr _ Ho) g Hg eq_refl) as (a & Ha & Ea). destruct (HP _ Ho) as (_ & _ & SO). pose proof (so_same _ _ _ _ _ _ _ _ _ _ _ _ _ _ _ SO a Ha) as E. rewrite Ea in E. rewrite E, (HB _ a Ho Ha), Ea. reflexivity.
  - intros r Hr Ne. destruct (HP r Hr) as (_ & _ & SO). apply (so_other _ _ _ _ _ _ _ _ _ _ _ _ _ _ _ SO g Hg). congruence.
Qed.
Lemma glob_len r : 0 <= r < SIZE -> zlen (k_glob (P r)) = gs.
Proof. intros Hr. destruct (HP r Hr) as (_ & _ & SO). exact (proj2 (so_lens _ _ _ _ _ _ _ _ _ _ _ _ _ _ _ SO)). Qed.
Lemma rows_ok X c : iscell cells c -> Spec_linsys.row_sum (concat (map (fun r => k_es (P r)) (range SIZE))) c X = Spec_linsys.row_sum (k_es (P (owner epart c))) c X.
Proof.
  intros Hc. apply (row_sum_one (fun r => k_es (P r))); [apply owners; exact Hc|]. intros r Hr Ne. destruct (HP r Hr) as (_ & _ & SO). apply (so_other _ _ _ _ _ _ _ _ _ _ _ _ _ _ _ SO c Hc). congruence.
Qed.

(** what a rank keeps as its right-hand side *)
Definition kept (sol : Model_linsys.solver) (r : Z) (o : option (list (option R))) (F : Z -> R) : Prop :=
  match sol with
  | Model_linsys.SPetsc => exists x, o = Some x /\ vector (zlen (dm_loctoglob (Dr r))) x (fun c => F (gc r c))
  | _ => if r =? 0 then exists b, o = Some b /\ vector gs b F else o = None
  end.
Lemma new_system_ok sol user f B0 : usable SIZE sol -> source sol cells SIZE st user f ->
  (forall r c, 0 <= r < SIZE -> iscell_of (Dr r) c -> nthZ None (k_rhs (P r)) c = Some (B0 (gc r c))) ->
  exists ss, new_system SIZE st l (Some sol) user = Ok ss /\ ss_bord ss = map (fun r => k_B (P r)) (range SIZE) /\
    forall r, 0 <= r < SIZE -> exists s, get (ss_lin ss) r = Ok s /\ kept sol r (Model_linsys.li_rhs s) (fun c => B0 c + total sol f (fun _ => 0) c)%R.
Proof.
  intros HU HS HB. pose proof size1 as S1. unfold new_system.
  rewrite (mapM_ok _ (fun r => k_B (P r))). 2: { intros r Hr. apply in_range in Hr. destruct (HP r Hr) as (Ev & _ & SO). rewrite (get_dom r Hr). cbn [bind]. rewrite Ev. cbn [bind]. exact (so_bord _ _ _ _ _ _ _ _ _ _ _ _ _ _ _ SO). }
  cbn [bind]. set (gl := match sol with Model_linsys.SMumps => map (fun r => k_glob (P r)) (range SIZE) | _ => [] end).
  match goal with |- context [bind (match sol with _ => _ end) _] => idtac end.
  assert (GL : match sol with
            | Model_linsys.SMumps => mapM (fun r => do D <- get Ds r; do v <- get l r; do B <- get (map (fun r => k_B (P r)) (range SIZE)) r; Model_linsys.global_rhs (dm_dim D) (global_size st) (sys_of D v) (lists_of D v) B) (range SIZE)
            | _ => ret []
            end = Ok gl).
  { unfold gl. destruct sol; try reflexivity. apply mapM_ok. intros r Hr. apply in_range in Hr. destruct (HP r Hr) as (Ev & _ & SO). rewrite (get_dom r Hr). cbn [bind]. rewrite Ev. cbn [bind]. rewrite (get_nthZ (k_B (P 0))) by (rewrite zlen_map, zlen_range; lia). rewrite (nthZ_map _ 0) by (rewrite zlen_range; lia). rewrite nthZ_range by lia. cbn [bind].
    rewrite (dim11 dim SIZE st CS r Hr), global_size_ok. exact (so_global _ _ _ _ _ _ _ _ _ _ _ _ _ _ _ SO). }
  match goal with |- context [bind ?m _] => replace m with (Ok gl) by (symmetry; exact GL) end. cbn [bind].
  destruct (mapM_ranks (fun r => do D <- get Ds r; do v <- get l r; do u <- get user r; Model_linsys.new_linsys SIZE r (global_size st) (fun _ => reduce_sum gl) (sys_of D v) (dom_bc D) v (lists_of D v) (Some sol) u)
     (fun r s => kept sol r (Model_linsys.li_rhs s) (fun c => B0 c + total sol f (fun _ => 0) c)%R) SIZE ltac:(lia)) as (ls & El & Ll & Hl).
  { intros r Hr. destruct (HP r Hr) as (Ev & _ & SO). destruct (HS r Hr) as (u & Eu & Su). rewrite (get_dom r Hr). cbn [bind]. rewrite Ev. cbn [bind]. rewrite Eu. cbn [bind]. unfold Model_linsys.new_linsys. rewrite (so_bord _ _ _ _ _ _ _ _ _ _ _ _ _ _ _ SO). cbn [bind]. change (bd_dim (dom_bc (Dr r))) with (dm_dim (Dr r)). rewrite (dim11 dim SIZE st CS r Hr).
    rewrite (so_size _ _ _ _ _ _ _ _ _ _ _ _ _ _ _ SO). cbn [bind]. rewrite (so_local _ _ _ _ _ _ _ _ _ _ _ _ _ _ _ SO), global_size_ok, (so_global _ _ _ _ _ _ _ _ _ _ _ _ _ _ _ SO). cbn [bind].
    assert (ONE : SIZE = 1 -> vector gs (k_glob (P r)) B0). { intros E1. split; [exact (glob_len r Hr)|]. intros g Hg. destruct (globs B0 g HB Hg) as (E & _). pose proof (owners g Hg). replace r with (owner epart g) by lia. exact E. }
    unfold kept, total. unfold usable in HU. destruct sol; cbn [usable source] in *.
    - rewrite HU. cbn [Z.eqb Pos.eqb]. assert (r = 0) by lia. subst r. destruct (add_rhs_ok gs _ _ u f (ONE HU)) as (b & Eb & Vb); [destruct u; [exact (proj2 Su) | exact (Su eq_refl)]|]. rewrite Eb. cbn [bind]. eexists. split; [reflexivity|]. cbn [Model_linsys.li_rhs Z.eqb]. exists b. split; [reflexivity|]. destruct Vb as (V1 & V2). split; [exact V1|]. intros i Hi. rewrite V2 by exact Hi. f_equal. ring.
    - rewrite HU. cbn [Z.eqb Pos.eqb]. assert (r = 0) by lia. subst r. eexists. split; [reflexivity|]. cbn [Model_linsys.li_rhs Z.eqb]. eexists. split; [reflexivity|]. destruct (ONE HU) as (V1 & V2). split; [exact V1|]. intros i Hi. rewrite V2 by exact Hi. f_equal. ring.
    - destruct (add_rhs_ok (zlen (dm_loctoglob (Dr r))) (k_rhs (P r)) (fun c => B0 (gc r c)) u (fun c => f (gc r c))) as (b & Eb & Vb); [split; [exact (proj1 (so_lens _ _ _ _ _ _ _ _ _ _ _ _ _ _ _ SO)) | intros c Hc; apply HB; assumption] | destruct u; exact Su|]. rewrite Eb. cbn [bind]. eexists. split; [reflexivity|]. cbn [Model_linsys.li_rhs]. exists b. split; [reflexivity|]. destruct Vb as (V1 & V2). split; [exact V1|]. intros i Hi. rewrite V2 by exact Hi. f_equal. ring.
    - destruct (Z.eqb_spec r 0) as [->|Nr].
      + destruct (add_rhs_ok gs (reduce_sum gl) B0 u f) as (b & Eb & Vb); [|destruct u; [exact (proj2 Su) | exact (Su eq_refl)]|].
        * split; [apply reduce_len; [lia | exact glob_len]|]. intros g Hg. destruct (globs B0 g HB Hg) as (E & Q). apply (reduce_one (fun r => k_glob (P r)) SIZE gs (owner epart g)); [apply owners; exact Hg | exact Hg | exact glob_len | exact E | exact Q].
        * rewrite Eb. cbn [bind]. eexists. split; [reflexivity|]. cbn [Model_linsys.li_rhs]. exists b. split; [reflexivity|]. destruct Vb as (V1 & V2). split; [exact V1|]. intros i Hi. rewrite V2 by exact Hi. f_equal. ring.
      + destruct u as [u|]; [exfalso; apply Nr; exact (proj1 Su)|]. eexists. split; [reflexivity|]. reflexivity.
    - destruct HU. }
  rewrite El. cbn [bind]. eexists. split; [reflexivity|]. cbn [ss_bord ss_lin]. split; [reflexivity|]. intros r Hr. destruct (Hl r Hr) as (s & Es & _ & K). exists s. auto.
Qed.
(** the vector of PETSc *)
Lemma petsc_vector_ok rs F : (forall r, 0 <= r < SIZE -> exists x, get rs r = Ok x /\ vector (zlen (dm_loctoglob (Dr r))) x (fun c => F (gc r c))) -> exists b, petsc_vector SIZE st rs = Ok b /\ vector gs b F.
Proof.
  intros H. pose proof size1 as S1. unfold petsc_vector. rewrite global_size_ok.
  destruct (foldM_range_inv (fun n b => zlen b = gs /\ forall r c, 0 <= r < n -> iscell_of (Dr r) c -> nthZ None b (gc r c) = Some (F (gc r c)))
     (fun b r => do D <- get Ds r; do x <- get rs r; foldM (fun b i => do g <- get (dm_loctoglob D) i; do y <- get x i; set b g y) (range (zlen (dm_center D))) b) SIZE (Model_linsys.zeros_o gs)) as (b & E & L & Q).
  - lia.
  - split; [apply Properties_linsys.zeros_o_len; apply zlen_nonneg | intros; lia].
  - intros r b Hr (Lb & Q). destruct (H r Hr) as (x & Ex & Lx & Hx). rewrite (get_dom r Hr). cbn [bind]. rewrite Ex. cbn [bind]. destruct (sizes r Hr) as (SZ & _). rewrite SZ.
    destruct (foldM_range_inv (fun n b => zlen b = gs /\ (forall r' c, 0 <= r' < r -> iscell_of (Dr r') c -> nthZ None b (gc r' c) = Some (F (gc r' c))) /\ forall c, 0 <= c < n -> nthZ None b (gc r c) = Some (F (gc r c)))
       (fun b i => do g <- get (dm_loctoglob (Dr r)) i; do y <- get x i; set b g y) (zlen (dm_loctoglob (Dr r))) b) as (b' & E' & L' & Q1 & Q2).
    + apply zlen_nonneg.
    + split; [exact Lb|]. split; [exact Q | intros; lia].
    + intros i b1 Hi (L1 & A1 & A2). rewrite (get_nthZ (-1)) by exact Hi. cbn [bind]. rewrite (get_nthZ None) by lia. cbn [bind]. change (nthZ (-1) (dm_loctoglob (Dr r)) i) with (gc r i). pose proof (gcell_owned dim cells nodes labels epart r _ (PAr r Hr) i Hi) as (G1 & G2). unfold iscell in G1. rewrite set_upd by lia.
      eexists. split; [reflexivity|]. rewrite zlen_upd. split; [exact L1|]. split.
      * intros r' c Hr' Hc. assert (Hr2 : 0 <= r' < SIZE) by lia. pose proof (gcell_owned dim cells nodes labels epart r' _ (PAr r' Hr2) c Hc) as (G3 & G4). rewrite nthZ_upd_neq by (try (unfold iscell in G3; lia); intros EE; rewrite <- EE in G4; lia). apply A1; assumption.
      * intros c Hc. assert (Hc' : iscell_of (Dr r) c) by (unfold iscell_of; lia). pose proof (gcell_owned dim cells nodes labels epart r _ (PAr r Hr) c Hc') as (G3 & _). destruct (Z.eq_dec c i) as [->|Ne].
        -- rewrite nthZ_upd_eq by lia. apply Hx. exact Hi.
        -- rewrite nthZ_upd_neq by (try (unfold iscell in G3; lia); intros EE; apply Ne; apply (gcell_inj dim cells nodes labels epart r (Dr r) (PAr r Hr) c i Hc' Hi); congruence). apply A2. lia.
    + exists b'. split; [exact E'|]. split; [exact L'|]. intros r' c Hr' Hc. destruct (Z.eq_dec r' r) as [->|Ne]; [apply Q2; exact Hc | apply Q1; [lia | exact Hc]].
  - exists b. split; [exact E|]. split; [exact L|]. intros g Hg. destruct (rank_of g Hg) as (r & a & Hr & Ha & <-). apply Q; assumption.
Qed.
Lemma handed_ok sol ss F user f : usable SIZE sol -> source sol cells SIZE st user f ->
  (forall r, 0 <= r < SIZE -> exists s, get (ss_lin ss) r = Ok s /\ kept sol r (Model_linsys.li_rhs s) F) ->
  exists b, handed_rhs SIZE st sol ss user = Ok b /\ vector gs b (fun c => F c + f c)%R.
Proof.
  intros HU HS HK. pose proof size1 as S1. unfold handed_rhs.
  destruct (mapM_ranks (fun r => do s <- get (ss_lin ss) r; do u <- get user r; given_rhs (Model_linsys.li_rhs s) u) (fun r o => kept sol r o (fun c => F c + f c)%R) SIZE ltac:(lia)) as (rs & Er & Lr & Hr).
  { intros r Hr. destruct (HK r Hr) as (s & Es & K). destruct (HS r Hr) as (u & Eu & Su). rewrite Es. cbn [bind]. rewrite Eu. cbn [bind].
    assert (GLOB : forall b, Model_linsys.li_rhs s = Some b -> vector gs b F -> match u with None => forall i, 0 <= i < gs -> f i = 0%R | Some a => zlen a = gs /\ forall i, 0 <= i < gs -> nthZ 0%R a i = f i end ->
       exists o, given_rhs (Model_linsys.li_rhs s) u = Ok o /\ exists b, o = Some b /\ vector gs b (fun c => F c + f c)%R).
    { intros b -> Vb HH. destruct (add_rhs_ok gs b F u f Vb HH) as (b' & Eb & Vb'). destruct u as [a|]; cbn [given_rhs].
      - rewrite Eb. cbn [bind]. eexists. split; [reflexivity|]. exists b'. auto.
      - unfold Model_linsys.add_rhs in Eb. injection Eb as <-. eexists. split; [reflexivity|]. exists b. auto. }
    assert (NOTP : sol <> Model_linsys.SPetsc -> exists o, given_rhs (Model_linsys.li_rhs s) u = Ok o /\ (if r =? 0 then exists b, o = Some b /\ vector gs b (fun c => F c + f c)%R else o = None)).
    { intros NP. assert (K' : if r =? 0 then exists b, Model_linsys.li_rhs s = Some b /\ vector gs b F else Model_linsys.li_rhs s = None) by (destruct sol; try exact K; congruence).
      assert (Su' : match u with None => r = 0 -> forall c, iscell cells c -> f c = 0%R | Some a => r = 0 /\ zlen a = gs /\ forall c, iscell cells c -> nthZ 0%R a c = f c end) by (destruct sol; try exact Su; congruence).
      destruct (Z.eqb_spec r 0) as [->|Nr].
      - destruct K' as (b & Eb & Vb). apply (GLOB b Eb Vb). destruct u; [exact (proj2 Su') | exact (Su' eq_refl)].
      - destruct u as [a|]; [exfalso; apply Nr; exact (proj1 Su')|]. rewrite K'. eexists. split; [reflexivity|]. reflexivity. }
    unfold kept. destruct sol; try (apply NOTP; discriminate). unfold kept in K. destruct K as (x & Ex & Vx). cbn [source] in Su.
    destruct (add_rhs_ok (zlen (dm_loctoglob (Dr r))) x (fun c => F (gc r c)) u (fun c => f (gc r c)) Vx) as (b & Eb & Vb); [destruct u; exact Su|]. rewrite Ex. destruct u as [a|]; cbn [given_rhs].
    - rewrite Eb. cbn [bind]. eexists. split; [reflexivity|]. exists b. auto.
    - unfold Model_linsys.add_rhs in Eb. injection Eb as <-. eexists. split; [reflexivity|]. exists x. auto. }
  rewrite Er. cbn [bind].
  assert (NOTP : sol <> Model_linsys.SPetsc -> exists b, (do o <- get rs 0; match o with Some b => ret b | None => Err TypeError end) = Ok b /\ vector gs b (fun c => F c + f c)%R).
  { intros NP. destruct (Hr 0 ltac:(lia)) as (o & Eo & _ & K). rewrite Eo. cbn [bind]. assert (K' : exists b, o = Some b /\ vector gs b (fun c => F c + f c)%R) by (destruct sol; try exact K; congruence). destruct K' as (b & -> & Vb). exists b. auto. }
  destruct sol; try (apply NOTP; discriminate).
  set (g := fun o : option (list (option R)) => match o with Some x => ret x | None => Err TypeError end).
  destruct (mapM_total g rs) as (rs' & Er'). { intros o Ho. destruct (In_nthZ None rs o Ho) as (r & Hr0 & Eo). destruct (Hr r ltac:(lia)) as (o' & Eo' & _ & x & Ex & _). rewrite (get_nthZ None) in Eo' by lia. injection Eo' as Eo'. exists x. unfold g. rewrite <- Eo, Eo', Ex. reflexivity. }
  rewrite Er'. cbn [bind]. apply petsc_vector_ok. intros r Hr0. destruct (Hr r Hr0) as (o & Eo & _ & x & Ex & Vx). destruct (mapM_get g rs rs' r o Er' Eo ltac:(lia)) as (x' & Ex' & Eg). rewrite Ex in Eg. injection Eg as <-. exists x. auto.
Qed.
End Packed.

(** ** C74 *)
Lemma operator_ok X0 l sol user0 f0 user f : holds X0 l -> usable SIZE sol -> source sol cells SIZE st user0 f0 -> source sol cells SIZE st user f ->
  exists ss es b, new_system SIZE st l (Some sol) user0 = Ok ss /\ assemble SIZE st l = Ok es /\ handed_rhs SIZE st sol ss user = Ok b /\ zlen b = gs /\
    (forall e, In e (concat es) -> iscell cells (fst (fst e)) /\ iscell cells (snd (fst e))) /\
    forall X c, iscell cells c -> exists a y, Spec_linsys.row_sum (concat es) c X = Some a /\ nthZ None b c = Some y /\ laplacian dim cells nodes labels bc vs X c (a - y + total sol f0 f c)%R.
Proof.
  intros HH HU HS0 HS. destruct (packs l X0 HH) as (P & HP). destruct (rhs_exists l P HP) as (B0 & HB). destruct (new_system_ok l P HP sol user0 f0 B0 HU HS0 HB) as (ss & Es & _ & Hs). destruct (handed_ok sol ss _ user f HU HS Hs) as (b & Eb & Lb & Vb).
  exists ss, (map (fun r => k_es (P r)) (range SIZE)), b. split; [exact Es|]. split; [exact (assemble_ok l P HP)|]. split; [exact Eb|]. split; [exact Lb|]. split.
  - intros e He. apply in_concat in He as (q & Hq & He). apply in_map_iff in Hq as (r & <- & Hr). apply in_range in Hr. destruct (HP r Hr) as (_ & _ & SO). exact (so_range _ _ _ _ _ _ _ _ _ _ _ _ _ _ _ SO e He).
  - intros X c Hc. rewrite (rows_ok l P HP X c Hc), (Vb c Hc). pose proof (owners c Hc) as Ho. destruct (gcell_onto dim cells nodes labels epart _ (Dr (owner epart c)) (PAr _ Ho) c Hc eq_refl) as (i & Hi & Ei). destruct (HP _ Ho) as (_ & _ & SO). destruct (node_values_exist X) as (N & HN).
    destruct (so_flux _ _ _ _ _ _ _ _ _ _ _ _ _ _ _ SO X N i HN Hi) as (a & y & Q & Ea & Ey & HQ & EQ). rewrite Ei in *. rewrite (HB _ i Ho Hi), Ei in Ey. injection Ey as Ey. exists a. eexists. split; [exact Ea|]. split; [reflexivity|]. exists N, Q. split; [exact HN|]. split; [exact HQ|]. rewrite <- EQ, <- Ey. unfold total. destruct sol; ring.
Qed.
End Ranks6.
