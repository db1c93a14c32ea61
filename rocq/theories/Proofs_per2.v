(** * Proofs_per2: a periodic mesh on one rank: the domain beside the one with all nodes labelled 1. *)
From Coq Require Import Reals Lra Permutation Sorted.
From Verif Require Import Py PyLemmas Model_part Model_label Model_conn Spec_conn Proofs_conn1 Proofs_conn2 Proofs_conn3 Model_geom Spec_geom Proofs_geom1 Proofs_geom2 Proofs_geom3
  Model_halo Spec_halo Proofs_halo1 Proofs_halo2 Proofs_halo3 Properties_halo Model_periodic Spec_periodic Proofs_periodic Proofs_periodic2 Proofs_periodic3
  Model_interp Spec_interp Proofs_interp1 Proofs_interp2 Proofs_interp4 Properties_interp Model_fvm Spec_fvm Model_bc Model_linsys Model_domain Spec_domain Proofs_domain1 Proofs_domain2 Proofs_domain4
  Model_parallel Spec_parallel Properties_parallel Spec_per Proofs_per1.
Open Scope Z_scope.

(** ** points facing each other *)
Lemma zlen_S {A} (x : A) l : IZR (zlen (x :: l)) = (IZR (zlen l) + 1)%R.
Proof. rewrite zlen_cons, plus_IZR. ring. Qed.
Lemma vsum_cons p l : vsum (p :: l) = vadd p (vsum l). Proof. reflexivity. Qed.
Lemma across_vsum a L l l' : Forall2 (Spec_periodic.across a L) l l' -> coord a (vsum l) = 0%R /\ vsum l' = set_coord a (vsum l) (IZR (zlen l) * L)%R.
Proof.
  induction 1 as [|p q l l' (H1 & H2) HF (IH1 & IH2)]; [split; [destruct a; reflexivity|]; change (zlen (@nil pt)) with 0; rewrite Rmult_0_l; destruct a; reflexivity|].
  rewrite !vsum_cons, zlen_S, IH2, H2. revert H1 IH1. generalize (vsum l) as s. intros [s1 s2 s3]. destruct p as [p1 p2 p3]. destruct a; unfold vadd; cbn [coord set_coord px py pz]; intros -> ->; (split; [ring|]); f_equal; ring.
Qed.
Lemma Forall2_zlen {A B} (P : A -> B -> Prop) l l' : Forall2 P l l' -> zlen l = zlen l'.
Proof. induction 1; [reflexivity|]. rewrite !zlen_cons. lia. Qed.
Lemma across_barycentre a L l l' : Forall2 (Spec_periodic.across a L) l l' -> 0 < zlen l -> Spec_periodic.across a L (barycentre l) (barycentre l').
Proof.
  intros H HL. destruct (across_vsum a L l l' H) as (E1 & E2). unfold barycentre. rewrite <- (Forall2_zlen _ _ _ H), E2. assert (N : (0 < IZR (zlen l))%R) by (apply IZR_lt; exact HL). revert E1 N. generalize (IZR (zlen l)) as n. generalize (vsum l) as s. intros [s1 s2 s3] n.
  unfold Spec_periodic.across. destruct a; unfold vscal; cbn [coord set_coord px py pz]; intros -> N; (split; [ring|]); f_equal; field; lra.
Qed.
Lemma coord_barycentre_le a L l : 0 < zlen l -> (forall p, In p l -> (coord a p <= L)%R) -> (coord a (barycentre l) <= L)%R.
Proof.
  intros HL H. assert (S : (coord a (vsum l) <= IZR (zlen l) * L)%R).
  { clear HL. induction l as [|p l IH]; [change (zlen (@nil pt)) with 0; rewrite Rmult_0_l; destruct a; cbn; lra|]. rewrite vsum_cons, zlen_S. specialize (H p (or_introl eq_refl)) as Hp. assert (IH' := IH (fun q Hq => H q (or_intror Hq))). revert Hp IH'. generalize (vsum l) as s. intros [s1 s2 s3]. destruct p as [p1 p2 p3]. destruct a; unfold vadd; cbn [coord px py pz]; lra. }
  assert (N : (0 < IZR (zlen l))%R) by (apply IZR_lt; exact HL). unfold barycentre. assert (E : coord a (vscal (/ IZR (zlen l)) (vsum l)) = (/ IZR (zlen l) * coord a (vsum l))%R) by (destruct a; reflexivity). rewrite E.
  apply Rmult_le_reg_l with (IZR (zlen l)); [exact N|]. rewrite <- Rmult_assoc, Rinv_r, Rmult_1_l by lra. exact S.
Qed.

(** ** ghost rows with the placeholder of periodic nodes *)
Lemma ghost_padding n rows : (forall r, In r rows -> (forall e, In e r -> g_cell e <> -1 /\ 0 <= g_last e < n) \/ r = [entry_of no_ghost]) ->
  zlen (pad_rows rows) = zlen rows /\ forall i, 0 <= i < zlen rows -> ghost_row_ok n (nthZ [] (pad_rows rows) i).
Proof.
  intros H. unfold pad_rows. set (m := fold_left _ _ _). split; [apply zlen_map|]. intros i Hi. rewrite (nthZ_map _ []) by exact Hi. cbv zeta. set (r := nthZ [] rows i). pose proof (H r (nthZ_In [] _ _ Hi)) as HR. set (pad := repeat gpad (Z.to_nat (m - zlen r))).
  assert (RP : forall k, real_ghosts (repeat gpad k) = []) by (induction k; [reflexivity | exact IHk]).
  assert (RA : forall a b, real_ghosts (a ++ b) = real_ghosts a ++ real_ghosts b) by (intros; apply filter_app).
  assert (G : forall q, real_ghosts q = [] -> 0 < zlen (r ++ q) -> ghost_row_ok n (r ++ q)).
  { intros q Eq Hz. split; [exact Hz|]. rewrite RA, Eq, app_nil_r. destruct HR as [HR|HR].
    - split; [|intros e He; apply filter_In in He as (He & _); apply HR; exact He]. destruct r as [|e t]; [reflexivity|]. change (nthZ gpad ((e :: t) ++ q) 0) with e. intros E. exfalso. exact (proj1 (HR e (or_introl eq_refl)) E).
    - rewrite HR. split; [intros _; reflexivity | intros e []]. }
  destruct (Z.eqb_spec (zlen (r ++ pad)) 0) as [E|E].
  - rewrite <- app_assoc. apply G; [rewrite RA; unfold pad; rewrite RP; reflexivity|]. rewrite !zlen_app. change (zlen [gpad]) with 1. pose proof (zlen_nonneg r). pose proof (zlen_nonneg pad). lia.
  - apply G; [apply RP|]. pose proof (zlen_nonneg (r ++ pad)). lia.
Qed.
Lemma pad_unique_ok n rows i : 0 <= i < zlen rows -> (forall c, In c (nthZ [] rows i) -> 0 <= c < n) -> row_ok n (nthZ [] (pad_unique rows) i).
Proof.
  intros Hi H. destruct (pad_unique_row rows i Hi) as (k & E). assert (HU : forall c, In c (np_unique (nthZ [] rows i)) -> 0 <= c < n) by (intros c Hc; apply H, np_unique_In; exact Hc).
  assert (EF : filter (fun c => negb (c =? -1)) (np_unique (nthZ [] rows i)) = np_unique (nthZ [] rows i)). { revert HU. generalize (np_unique (nthZ [] rows i)) as l. induction l as [|x l IH]; intros HU; [reflexivity|]. cbn [filter]. pose proof (HU x (or_introl eq_refl)). destruct (Z.eqb_spec x (-1)); [lia|]. cbn [negb]. rewrite IH; [reflexivity | intros c Hc; apply HU; right; exact Hc]. }
  rewrite EF, <- app_assoc in E. exact (proj1 (row_ok_snoc n _ _ _ E HU)).
Qed.

(** ** two labellings of one mesh have the same geometry *)
Lemma same_geometry dim cells nodes lab lab' g g' : wf_mesh dim (zlen nodes) cells -> zlen lab = zlen nodes -> zlen lab' = zlen nodes ->
  build_geometry dim cells nodes lab = Ok g -> build_geometry dim cells nodes lab' = Ok g' ->
  ge_conn g = ge_conn g' /\ ge_cells g = ge_cells g' /\ ge_facenodes g = ge_facenodes g' /\ map fg_normal (ge_faces g) = map fg_normal (ge_faces g') /\
  map fg_mesure (ge_faces g) = map fg_mesure (ge_faces g') /\ map fg_center (ge_faces g) = map fg_center (ge_faces g').
Proof.
  intros WF H1 H2 E1 E2. destruct (build_geometry_ok dim nodes lab cells WF H1) as (cn & g0 & E0 & EB & EC & ECs & EF & _ & E3 & E2d). rewrite E1 in E0. injection E0 as <-.
  destruct (build_geometry_ok dim nodes lab' cells WF H2) as (cn' & g0 & E0 & EB' & EC' & ECs' & EF' & _ & E3' & E2d'). rewrite E2 in E0. injection E0 as <-. rewrite EB in EB'. injection EB' as <-.
  split; [congruence|]. split; [congruence|]. split; [|rewrite EF, EF', !map_map; auto]. destruct (wm_dim _ _ _ WF) as [Ed|Ed]; [rewrite E2d, E2d' by exact Ed; reflexivity | rewrite E3, E3' by exact Ed; reflexivity].
Qed.

Section Per.
Context (f32 : R -> R) (dim : Z) (cells : list (list Z)) (nodes : list pt) (labels npart0 epart : list Z).
Hypothesis PM : periodic_mesh dim cells nodes labels f32.
Hypothesis VS : valid_split dim 1 cells nodes npart0 epart.
Notation WF := (pm_mesh _ _ _ _ _ PM).
Notation HN := (proj1 (pm_labels _ _ _ _ _ PM)).
Notation Hd := (wm_dim _ _ _ (pm_mesh _ _ _ _ _ PM)).
Definition ones : list Z := zeros_like 1 (zlen nodes).
Notation K := (alone (zlen nodes) (zlen cells)).

Lemma ones_len : zlen ones = zlen nodes. Proof. apply zlen_zeros_like, zlen_nonneg. Qed.
Lemma facet_in c F : has_facet dim cells c F -> forall k, In k F -> 0 <= k < zlen nodes.
Proof. intros (Hc & _ & _ & HI) k Hk. apply (wm_rows _ _ _ WF (cell cells c)); [apply nthZ_In; exact Hc | apply HI; exact Hk]. Qed.
Lemma ones_label c F : has_facet dim cells c F -> face_label (priority dim) (map (nthZ 0 ones) F) = 1.
Proof.
  intros HF. pose proof (facet_in c F HF) as HI. destruct HF as (_ & _ & HL & _). assert (E : map (nthZ 0 ones) F = map (fun _ => 1) F) by (apply map_ext_in; intros k Hk; apply nthZ_zeros_like, HI; exact Hk). rewrite E.
  destruct F as [|x t]; [pose proof Hd; cbn in HL; lia|]. cbn [map face_label]. assert (EB : forallb (Z.eqb 1) (map (fun _ => 1) t) = true) by (apply forallb_forall; intros y Hy; apply in_map_iff in Hy as (? & <- & _); reflexivity). rewrite EB. reflexivity.
Qed.
Lemma VM1 : valid_mesh dim cells nodes ones.
Proof.
  constructor; [exact WF | exact (pm_nonflat _ _ _ _ _ PM) | exact (pm_proper _ _ _ _ _ PM) | |].
  - split; [exact ones_len|]. intros l Hl. unfold ones, zeros_like in Hl. apply in_map_iff in Hl as (? & <- & _). pose proof Hd. lia.
  - intros c F (HF & _). rewrite (ones_label c F HF). pose proof Hd. lia.
Qed.
Lemma no_cut F h : ~ cut_by K F h.
Proof. intros (Hh & _). unfold ishalo in Hh. cbn in Hh. lia. Qed.
Lemma VR1 : valid_rank dim 1 cells nodes ones K.
Proof.
  destruct (vs_alone _ _ _ _ _ _ VS eq_refl) as (HC & HU). pose proof (zlen_nonneg nodes) as NN. constructor.
  - exact WF.
  - exact HC.
  - exact HU.
  - exact (pm_nonflat _ _ _ _ _ PM).
  - exact (pm_proper _ _ _ _ _ PM).
  - exact (vm_labels _ _ _ _ VM1).
  - intros c F HF _. exact (vm_boundary _ _ _ _ VM1 c F HF).
  - lia.
  - reflexivity.
  - lia.
  - cbn [alone rk_cell]. split; [apply zlen_range; lia | apply NoDup_range].
  - reflexivity.
  - intros c F h x _ HCu. destruct (no_cut F h HCu).
  - cbn [alone rk_info rk_hg]. split; [apply zlen_zeros_like; exact NN|]. intros k Hk. rewrite !nthZ_zeros_like by exact Hk. reflexivity.
  - cbn [alone rk_hg rk_nhg]. split; [apply zlen_zeros_like; exact NN|]. split; [lia|]. intros k e Hk He. rewrite nthZ_zeros_like in He by exact Hk. destruct He.
Qed.
Lemma twin_exists : exists g cn h nodecell cellnid nv di, parts dim 1 cells nodes ones K g cn h nodecell cellnid /\
  let D1 := assembled dim cells nodes ones K g cn h nodecell cellnid nv di in part_of dim cells nodes ones epart 0 D1 /\ consistent dim D1.
Proof.
  destruct (parts_exist dim 1 cells nodes ones K VR1) as (g & cn & h & nodecell & cellnid & P). destruct (build_ok f32 dim 1 cells nodes ones K g cn h nodecell cellnid VR1 P) as (nv & di & EB & _). cbv zeta in EB.
  destruct (Proofs_parallel3.first_ok f32 dim 1 cells nodes ones K g cn h nodecell cellnid VR1 P) as (p & E1 & EG). unfold build_domain in EB. rewrite E1 in EB. cbn [bind] in EB. cbn [rk_ext rk_node alone] in E1.
  exists g, cn, h, nodecell, cellnid, nv, di. split; [exact P|]. cbv zeta. set (D1 := assembled _ _ _ _ _ _ _ _ _ _ _ _) in *.
  assert (SE : setup f32 dim 1 cells nodes ones npart0 epart = Ok {| se_domains := [D1]; se_comms := []; se_tc := [range (zlen cells)] |}).
  { apply (setup_alone f32 dim cells nodes ones npart0 epart _ D1 ones_len E1).
    - cbn [pr_h]. destruct (sequential dim nodes ones cells WF ones_len (pm_nonflat _ _ _ _ _ PM) g (bu_g _ _ _ _ _ _ _ _ _ _ _ P) [] []) as (h' & Eh & _ & _ & _ & Enn & _). pose proof (bu_h _ _ _ _ _ _ _ _ _ _ _ P) as Eh'. cbn [rk_ext rk_node alone] in Eh'. rewrite Eh in Eh'. injection Eh' as <-. exact Enn.
    - intros H. unfold ones, zeros_like in H. apply in_map_iff in H as (? & X & _). discriminate.
    - cbn [pr_p]. rewrite EG. destruct (hf_ghost _ _ _ _ _ _ _ _ (bu_hf _ _ _ _ _ _ _ _ _ _ _ P)) as (_ & LN & _). exact LN.
    - exact EB. }
  destruct (C68_parallel_setup f32 dim 1 cells nodes ones npart0 epart VM1 VS) as (st & Est & RP & CS & _). rewrite SE in Est. injection Est as <-. cbn [se_domains] in *. split; [exact (rp_part _ _ _ _ _ _ _ RP 0 ltac:(lia)) | exact (CS 0 ltac:(lia))].
Qed.
End Per.
