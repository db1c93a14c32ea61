(** * Properties_petsc: the numbers of entries per row announced to PETSc (C89). *)
From Coq Require Import Reals Lra Permutation Sorted.
From Verif Require Import Py PyLemmas Model_part Spec_part Model_label Model_conn Spec_conn Proofs_conn1 Model_geom Spec_geom Proofs_geom1 Model_interp Spec_interp Spec_lsq Model_fvm Spec_fvm Proofs_fvm1 Proofs_fvm2 Model_bc Spec_bc Spec_bc3
  Model_domain Spec_domain Model_parallel Spec_parallel Properties_geom Properties_parallel Model_comm Model_run Spec_run Proofs_run1 Proofs_run3 Proofs_run5 Proofs_run6 Properties_run Spec_run2 Model_run2 Proofs_run7 Proofs_run11 Proofs_run13 Proofs_run14 Proofs_run15 Spec_run3 Proofs_run16 Properties_run2
  Model_poisson Spec_poisson Spec_poisson2 Spec_poisson3 Proofs_poisson6 Proofs_poisson7 Proofs_poisson8 Properties_poisson Properties_poisson2.
From Verif Require Import Model_linsys Model_petsc Spec_petsc Proofs_petsc1 Proofs_petsc2.
From Verif Require Spec_linsys Proofs_poisson2 Proofs_part2.
Open Scope Z_scope.

Section All.
Context (dim SIZE : Z) (cells : list (list Z)) (nodes : list pt) (labels npart0 epart : list Z) (st : setting).
Hypothesis VM : valid_mesh dim cells nodes labels.
Hypothesis VS : valid_split dim SIZE cells nodes npart0 epart.
Notation Ds := (se_domains st).
Notation Dr := (domain_of (se_domains st)).
Hypothesis RP : represents dim SIZE cells nodes labels epart Ds.
Hypothesis CS : forall r, 0 <= r < SIZE -> consistent dim (Dr r).
Context (bc : list (loc * bctype)) (vs : list (loc * bcval)).
Notation PAr := (rp_part _ _ _ _ _ _ _ RP).
Notation att := (attached dim cells nodes labels bc vs).
Notation rows := (rank_rows dim cells nodes labels epart st bc vs).
Notation pad := (padding dim st).
Notation gs := (zlen cells).
Context (es : list (list entry)).
Hypothesis LE : zlen es = SIZE.
Hypothesis HE : forall r, 0 <= r < SIZE -> exists e, get es r = Ok e /\ rows r e.

Lemma own_cell r c : In c (owned cells epart r) <-> iscell cells c /\ owner epart c = r.
Proof. unfold owned. rewrite filter_In, in_range, Z.eqb_eq. reflexivity. Qed.
Lemma es_at r : 0 <= r < SIZE -> get es r = Ok (nthZ [] es r) /\ rows r (nthZ [] es r).
Proof. intros Hr. destruct (HE r Hr) as (e & Ee & He). rewrite (get_nthZ []) in Ee by lia. injection Ee as <-. split; [apply get_nthZ; lia | exact He]. Qed.
Lemma size_ok : global_size st = gs.
Proof. exact (Proofs_poisson6.global_size_ok dim SIZE cells nodes labels npart0 epart st VS RP CS). Qed.

Lemma nnz_all : (forall c, iscell cells c -> att c) -> exists nnz, petsc_nnz SIZE st es = Ok nnz /\ zlen nnz = gs /\
  forall r i, 0 <= r < SIZE -> iscell_of (Dr r) i -> let c := gcell (Dr r) i in
    (pad r <= 0 \/ owner epart 0 = r -> nthZ 0 nnz c = entries_in (nthZ [] es r) c) /\
    (0 < pad r -> owner epart 0 <> r -> nthZ 0 nnz c = if i =? 0 then pad r else entries_in (nthZ [] es r) (gcell (Dr r) (i - 1))).
Proof.
  intros HA. pose proof (vs_size _ _ _ _ _ _ VS) as S1. unfold petsc_nnz. rewrite size_ok.
  destruct (mapM_ranks (fun r => do D <- get Ds r; do e <- get es r; petsc_nnz_rank gs D e) (fun r b => zlen b = gs /\
    (forall i, iscell_of (Dr r) i -> (pad r <= 0 \/ In 0 (owned cells epart r) -> nthZ 0 b (gcell (Dr r) i) = entries_in (nthZ [] es r) (gcell (Dr r) i)) /\ (0 < pad r -> ~ In 0 (owned cells epart r) -> nthZ 0 b (gcell (Dr r) i) = entries_in (nthZ [] es r) (if i =? 0 then 0 else gcell (Dr r) (i - 1)))) /\
    forall g, 0 <= g < gs -> ~ In g (owned cells epart r) -> nthZ 0 b g = 0) SIZE ltac:(lia)) as (ns & EN & LN & HN).
  - intros r Hr. rewrite (dom11 dim SIZE cells nodes labels epart st RP r Hr). cbn [bind]. destruct (es_at r Hr) as (-> & (RW & _)). cbn [bind]. destruct (nnz_rank dim cells nodes labels epart r (Dr r) (PAr r Hr) bc vs _ (pad r) RW) as (b & Eb & H); [intros c Hc; apply HA, (own_cell r c), Hc|]. exists b. split; [exact Eb | exact H].
  - rewrite EN. cbn [bind]. eexists. split; [reflexivity|]. split; [rewrite zlen_map; apply zlen_range, zlen_nonneg|]. intros r i Hr Hi. set (c := gcell (Dr r) i). pose proof (gcell_owned dim cells nodes labels epart r _ (PAr r Hr) i Hi) as (GC & GO). fold c in GC, GO. unfold iscell in GC.
    assert (Z0 : iscell cells 0) by (unfold iscell; lia). assert (O0 : In 0 (owned cells epart r) <-> owner epart 0 = r) by (rewrite own_cell; tauto).
    rewrite (nthZ_map _ 0) by (rewrite zlen_range; lia). rewrite nthZ_range by lia.
    assert (SUM : fold_right Z.add 0 (map (fun n => nthZ 0 n c) ns) = nthZ 0 (nthZ [] ns r) c).
    { rewrite <- (map_nthZ_range [] ns) at 1. rewrite map_map, LN. apply (sum_one (fun k => nthZ 0 (nthZ [] ns k) c) SIZE r Hr). intros k Hk Nk. destruct (HN k Hk) as (b & Gb & _ & _ & _ & Z). rewrite (get_nthZ []) in Gb by lia. injection Gb as <-. apply Z; [exact GC|]. rewrite own_cell. intros (_ & Q). congruence. }
    rewrite SUM. destruct (HN r Hr) as (b & Gb & _ & _ & V & _). rewrite (get_nthZ []) in Gb by lia. injection Gb as <-. destruct (V i Hi) as (V1 & V2). fold c in V1, V2. split.
    + intros H. apply V1. rewrite O0. exact H.
    + intros Hp No. rewrite V2 by (auto; rewrite O0; exact No). destruct (i =? 0); [|reflexivity]. destruct (es_at r Hr) as (_ & (_ & K & _)). apply K. rewrite O0. exact No.
Qed.
(** without additional entries *)
Hypothesis NP : forall r, 0 <= r < SIZE -> pad r <= 0.
Lemma count_all c : iscell cells c -> entries_in (concat es) c = entries_in (nthZ [] es (owner epart c)) c.
Proof.
  intros Hc. destruct (vs_owners _ _ _ _ _ _ VS) as (_ & OW). rewrite entries_concat. rewrite <- (map_nthZ_range [] es) at 1. rewrite map_map, LE. apply (sum_one (fun k => entries_in (nthZ [] es k) c) SIZE (owner epart c) (OW c Hc)). intros k Hk Nk. apply entries_none. intros e He Ee.
  destruct (es_at k Hk) as (_ & (RW & _)). assert (HI : In c (map (fun e : entry => fst (fst e)) (nthZ [] es k))) by (apply in_map_iff; exists e; auto). apply RW in HI as [(Q & _)|(_ & Q)]; [apply own_cell in Q as (_ & Q); congruence | specialize (NP k Hk); lia].
Qed.
Lemma nnz_error : (exists c, iscell cells c /\ ~ att c) -> petsc_nnz SIZE st es = Err IndexError.
Proof.
  intros (c & Hc & NA). destruct (vs_owners _ _ _ _ _ _ VS) as (_ & OW). unfold petsc_nnz. rewrite size_ok. rewrite (mapM_some_err _ IndexError); [reflexivity| |].
  - intros r Hr. apply in_range in Hr. rewrite (dom11 dim SIZE cells nodes labels epart st RP r Hr). cbn [bind]. destruct (es_at r Hr) as (-> & (RW & _)). cbn [bind]. destruct (Forall_Exists_dec att (attached_dec dim cells nodes labels bc vs) (owned cells epart r)) as [HF|HX].
    + left. destruct (nnz_rank dim cells nodes labels epart r (Dr r) (PAr r Hr) bc vs _ (pad r) RW) as (b & Eb & _); [intros a Ha; exact (proj1 (Forall_forall _ _) HF a Ha)|]. exists b. exact Eb.
    + right. apply (nnz_short dim cells nodes labels epart r (Dr r) (PAr r Hr) bc vs _ (pad r) RW (NP r Hr)). apply Exists_exists in HX as (a & Ha & Na). exists a. auto.
  - exists (owner epart c). pose proof (OW c Hc) as Hr. split; [apply in_range; exact Hr|]. rewrite (dom11 dim SIZE cells nodes labels epart st RP _ Hr). cbn [bind]. destruct (es_at _ Hr) as (-> & (RW & _)). cbn [bind]. apply (nnz_short dim cells nodes labels epart _ _ (PAr _ Hr) bc vs _ _ RW (NP _ Hr)). exists c. split; [apply own_cell; auto | exact NA].
Qed.
End All.

(** the columns of a row *)
Lemma columns_fit es c cols : NoDup cols -> (forall d, In d cols -> exists x, In (c, d, x) es) -> zlen cols <= entries_in es c.
Proof.
  intros ND H. unfold entries_in. set (l := filter _ _). assert (HI : incl cols (map (fun e : entry => snd (fst e)) l)). { intros d Hd. destruct (H d Hd) as (x & Hx). apply in_map_iff. exists (c, d, x). split; [reflexivity|]. apply filter_In. split; [exact Hx | apply Z.eqb_refl]. }
  pose proof (NoDup_incl_length ND HI) as Q. rewrite map_length in Q. unfold zlen. apply inj_le in Q. exact Q.
Qed.
Lemma pad_zero f32 dim SIZE cells nodes labels npart0 epart st : setup f32 dim SIZE cells nodes labels npart0 epart = Ok st -> valid_mesh dim cells nodes labels -> represents dim SIZE cells nodes labels epart (se_domains st) -> (forall r, 0 <= r < SIZE -> consistent dim (domain_of (se_domains st) r)) -> (forall c, iscell cells c -> 0 <= owner epart c < SIZE) ->
  dim = 3 \/ SIZE = 1 -> forall r, 0 <= r < SIZE -> padding dim st r <= 0.
Proof.
  intros _ VM RP CS OW HD r Hr. unfold padding. destruct HD as [->|ES]; [cbn; lia|]. destruct (dim =? 2); [|lia]. set (D := domain_of _ r). pose proof (rp_part _ _ _ _ _ _ _ RP r Hr) as PA. fold D in PA. pose proof (CS r Hr) as CSr. fold D in CSr. destruct (where_eq (dm_name D) 10) as [|f t] eqn:EW; [change (zlen (@nil Z)) with 0; lia|]. exfalso.
  assert (Hf : In f (where_eq (dm_name D) 10)) by (rewrite EW; left; reflexivity). unfold where_eq in Hf. apply filter_In in Hf as (Hf & Nf). apply in_range in Hf. destruct (Proofs_poisson2.names_len dim cells nodes labels epart r D PA CSr) as (N1 & N2).
  assert (If : isface D f) by (unfold isface; lia). destruct (pa_faces _ _ _ _ _ _ _ PA f If) as (c0 & F & HF & _ & GF). pose proof (wm_dim _ _ _ (vm_mesh _ _ _ _ VM)) as Hd. destruct (pa_kinds _ _ _ _ _ _ _ PA f c0 F HF GF) as [a b Ia Ib two sd row name | a Ia one row name label | a Ia halo other sd row name]; [lia|lia|].
  assert (HC : has_facet dim cells (ghalo D (nthZ 0 (dm_halofid D) f)) F) by (apply sd; auto). pose proof (OW _ (proj1 HC)). lia.
Qed.

(** C89.  LinearSystem.assembly for petsc, in 3D on any number of ranks and on one rank: if every cell has a facet with another cell behind it or on a Dirichlet side, the number announced for
    a row is exactly the number of triplets that all the ranks together add to it (so no row has more columns than announced); if one has not, IndexError. *)
Theorem C89_preallocation : forall f32 dim SIZE cells nodes labels npart0 epart bc vs, regular dim SIZE cells nodes labels npart0 epart bc vs -> dim = 3 \/ SIZE = 1 ->
  exists st, setup f32 dim SIZE cells nodes labels npart0 epart = Ok st /\
    forall l, history bc vs SIZE st l -> exists es, assemble SIZE st l = Ok es /\
      ((forall c, iscell cells c -> attached dim cells nodes labels bc vs c) -> exists nnz, petsc_nnz SIZE st es = Ok nnz /\ zlen nnz = zlen cells /\
         forall c, iscell cells c -> nthZ 0 nnz c = entries_in (concat es) c /\ forall cols, NoDup cols -> (forall d, In d cols -> exists x, In (c, d, x) (concat es)) -> zlen cols <= nthZ 0 nnz c) /\
      ((exists c, iscell cells c /\ ~ attached dim cells nodes labels bc vs c) -> petsc_nnz SIZE st es = Err IndexError).
Proof.
  intros f32 dim SIZE cells nodes labels npart0 epart bc vs RG HD. regular_setup f32 RG st E RP CS HX. exists st. split; [exact E|]. intros l H. destruct (history_holds dim SIZE cells nodes labels npart0 epart st VM PL VS RP SC CS HX bc vs BV CW SP l H) as (X0 & HO0).
  destruct (assembled dim SIZE cells nodes labels npart0 epart st VM PL VS RP CS bc vs BV X0 l HO0) as (es & EA & LE & HE). exists es. split; [exact EA|]. destruct (vs_owners _ _ _ _ _ _ VS) as (_ & OW).
  pose proof (pad_zero f32 dim SIZE cells nodes labels npart0 epart st E VM RP CS OW HD) as NP. split; [|exact (nnz_error dim SIZE cells nodes labels npart0 epart st VS RP CS bc vs es LE HE NP)].
  intros HA. destruct (nnz_all dim SIZE cells nodes labels npart0 epart st VS RP CS bc vs es LE HE HA) as (nnz & EN & LN & HN). exists nnz. split; [exact EN|]. split; [exact LN|]. intros c Hc. pose proof (OW c Hc) as Hr.
  destruct (gcell_onto dim cells nodes labels epart _ _ (rp_part _ _ _ _ _ _ _ RP _ Hr) c Hc eq_refl) as (i & Hi & Ei). destruct (HN _ i Hr Hi) as (V & _). specialize (V (or_introl (NP _ Hr))). rewrite Ei in V.
  assert (EC : nthZ 0 nnz c = entries_in (concat es) c) by (rewrite V; symmetry; exact (count_all dim SIZE cells nodes labels npart0 epart st VS bc vs es LE HE NP c Hc)).
  split; [exact EC|]. intros cols ND HCo. rewrite EC. apply columns_fit; assumption.
Qed.
Print Assumptions C89_preallocation.

(** In 2D on several ranks each rank appends a triplet (0, 0, 0.) for every face it shares with another rank.  On the rank that owns cell 0 the counts are right (the appended ones included); on
    every other rank each row gets the count of the row before it, and the first row the number of appended triplets. *)
Theorem C89_shifted : forall f32 SIZE cells nodes labels npart0 epart bc vs, regular 2 SIZE cells nodes labels npart0 epart bc vs -> 1 < SIZE -> (forall c, iscell cells c -> attached 2 cells nodes labels bc vs c) ->
  exists st, setup f32 2 SIZE cells nodes labels npart0 epart = Ok st /\
    forall l, history bc vs SIZE st l -> exists es nnz, assemble SIZE st l = Ok es /\ petsc_nnz SIZE st es = Ok nnz /\ zlen nnz = zlen cells /\
      forall r, 0 <= r < SIZE -> exists D e, get (se_domains st) r = Ok D /\ get es r = Ok e /\ dm_loctoglob D = owned cells epart r /\
        forall i, 0 <= i < zlen (owned cells epart r) -> let c := nthZ (-1) (owned cells epart r) i in
          (owner epart 0 = r -> nthZ 0 nnz c = entries_in e c) /\
          (owner epart 0 <> r -> nthZ 0 nnz c = if i =? 0 then zlen (filter (Z.eqb 10) (dm_name D)) else entries_in e (nthZ (-1) (owned cells epart r) (i - 1))).
Proof.
  intros f32 SIZE cells nodes labels npart0 epart bc vs RG HS HA. regular_setup f32 RG st E RP CS HX. exists st. split; [exact E|]. intros l H. destruct (history_holds 2 SIZE cells nodes labels npart0 epart st VM PL VS RP SC CS HX bc vs BV CW SP l H) as (X0 & HO0).
  destruct (assembled 2 SIZE cells nodes labels npart0 epart st VM PL VS RP CS bc vs BV X0 l HO0) as (es & EA & LE & HE). destruct (nnz_all 2 SIZE cells nodes labels npart0 epart st VS RP CS bc vs es LE HE HA) as (nnz & EN & LN & HN). exists es, nnz. split; [exact EA|]. split; [exact EN|]. split; [exact LN|].
  intros r Hr. set (D := domain_of (se_domains st) r) in *. pose proof (rp_part _ _ _ _ _ _ _ RP r Hr) as PA. fold D in PA. pose proof (pa_cells _ _ _ _ _ _ _ PA) as EO. exists D, (nthZ [] es r). split; [exact (dom11 2 SIZE cells nodes labels epart st RP r Hr)|]. split; [apply get_nthZ; lia|]. split; [exact EO|].
  intros i Hi c. assert (Ii : iscell_of D i) by (unfold iscell_of; rewrite EO; exact Hi). destruct (HN r i Hr Ii) as (V1 & V2). fold D in V1, V2. assert (EG : forall j, gcell D j = nthZ (-1) (owned cells epart r) j) by (intros j; unfold gcell; rewrite EO; reflexivity). rewrite !EG in V1, V2. fold c in V1, V2.
  assert (FL : padding 2 st r = zlen (filter (Z.eqb 10) (dm_name D))).
  { unfold padding. cbn [Z.eqb Pos.eqb]. fold D. unfold where_eq. generalize (dm_name D). intros q. assert (G : forall m k, zlen (filter (fun j => nthZ 0 (m ++ k) j =? 10) (map (Z.add (zlen m)) (range (zlen k)))) = zlen (filter (Z.eqb 10) k)).
    { intros m k. revert m. induction k as [|x k IH]; intros m; [reflexivity|]. rewrite zlen_cons. rewrite range_S_shift by apply zlen_nonneg. cbn [map filter]. rewrite Z.add_0_r, (nthZ_app_r 0 m (x :: k) (zlen m)) by lia. rewrite Z.sub_diag. change (nthZ 0 (x :: k) 0) with x. rewrite (Z.eqb_sym 10 x). rewrite map_map. specialize (IH (m ++ [x])). rewrite zlen_app in IH. change (zlen [x]) with 1 in IH. rewrite <- app_assoc in IH. cbn [app] in IH.
      rewrite (map_ext (fun y => zlen m + (y + 1)) (Z.add (zlen m + 1))) by (intros y; lia). destruct (x =? 10); rewrite ?zlen_cons, IH; reflexivity. }
    specialize (G [] q). cbn [app] in G. rewrite <- G. f_equal. change (zlen (@nil Z)) with 0. rewrite (map_ext (Z.add 0) (fun y => y)) by (intros y; lia). rewrite map_id. reflexivity. }
  split; [intros O0; apply V1; right; exact O0|]. intros No. rewrite <- FL, <- EG. apply V2; [|exact No].
  destruct (vs_several _ _ _ _ _ _ VS HS) as (_ & _ & MEET). destruct (MEET r Hr) as (a & b & F & Ha & Hb & Oa & Ob). destruct (pa_facets _ _ _ _ _ _ _ PA a F Ha Oa) as (f & GF & _).
  assert (Nf : nthZ 0 (dm_name D) f = 10). { destruct (pa_kinds _ _ _ _ _ _ _ PA f a F Ha GF) as [a' b' Ia Ib two sd row name | a' Ia one row name label | a' Ia halo other sd row name]; [| |exact name].
    - exfalso. apply Ob. apply sd in Hb as [-> | ->]; [exact (proj2 (gcell_owned 2 cells nodes labels epart r D PA a' Ia)) | exact (proj2 (gcell_owned 2 cells nodes labels epart r D PA b' Ib))].
    - exfalso. apply Ob. rewrite (proj2 one b Hb). exact (proj2 (gcell_owned 2 cells nodes labels epart r D PA a' Ia)). }
  rewrite FL. destruct (Proofs_poisson2.names_len 2 cells nodes labels epart r D PA (CS r Hr)) as (N1 & N2). pose proof (proj1 GF) as If. unfold isface in If. assert (HI : In 10 (filter (Z.eqb 10) (dm_name D))) by (apply filter_In; split; [rewrite <- Nf; apply nthZ_In; lia | reflexivity]). destruct (filter (Z.eqb 10) (dm_name D)); [destruct HI | rewrite zlen_cons; pose proof (zlen_nonneg l0); lia].
Qed.
Print Assumptions C89_shifted.
