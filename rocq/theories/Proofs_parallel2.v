(** * Proofs_parallel2: what the ranks read. *)
From Coq Require Import Reals Permutation Sorted Lra.
From Verif Require Import Py PyLemmas Model_part Spec_part Proofs_part1 Model_file Model_label Model_conn Spec_conn Proofs_conn1 Proofs_conn3 Proofs_conn2 Model_geom Spec_geom
  Model_halo Spec_halo Model_interp Spec_interp Model_comm Model_haloghost Model_domain Spec_domain Properties_part Properties_file Model_parallel Spec_parallel Proofs_parallel1.
Open Scope Z_scope.

Lemma Int_part_IZR z : Int_part (IZR z) = z.
Proof. unfold Int_part. rewrite <- (tech_up (IZR z) (z + 1)); [lia | apply IZR_lt; lia | rewrite plus_IZR; lra]. Qed.
Lemma trunc_IZR z : trunc (IZR z) = z.
Proof. unfold trunc. destruct (Rle_dec 0 (IZR z)); [apply Int_part_IZR|]. rewrite <- opp_IZR, Int_part_IZR. lia. Qed.
Definition node_row (n : pt * Z) : list R := [px (fst n); py (fst n); pz (fst n); IZR (snd n)].
Lemma mapM_map_ok {A B C} (f : A -> B) (h : B -> res C) (k : A -> C) l : (forall x, In x l -> h (f x) = Ok (k x)) -> mapM h (map f l) = Ok (map k l).
Proof. induction l as [|x l IH]; intros H; [reflexivity|]. cbn [map mapM]. rewrite (H x (or_introl eq_refl)). cbn [bind]. rewrite IH by (intros y Hy; apply H; right; exact Hy). reflexivity. Qed.
Lemma rows_pt l : mapM row_pt (map node_row l) = Ok (map fst l).
Proof. apply mapM_map_ok. intros ((x, y, z), g) _. reflexivity. Qed.
Lemma rows_label l : mapM row_label (map node_row l) = Ok (map snd l).
Proof. apply mapM_map_ok. intros ((x, y, z), g) _. unfold node_row, row_label. cbn [fst snd px py pz]. change (get [x; y; z; IZR g] 3) with (Ok (IZR g)). cbn [bind]. rewrite trunc_IZR. reflexivity. Qed.
Lemma cell_row_pt dim nodes r : dim = 2 \/ dim = 3 -> zlen r = dim + 1 -> row_pt (cell_row dim nodes r) = Ok (cell_centre dim nodes r).
Proof.
  intros [-> | ->] HL; unfold cell_row, cell_centre; cbn [Z.eqb Pos.eqb].
  - destruct (list3 r HL) as (a & b & c & ->). unfold cell_row_2d, row_pt. change (nthZ 0 [a; b; c] 0) with a. change (nthZ 0 [a; b; c] 1) with b. change (nthZ 0 [a; b; c] 2) with c. unfold coord. change origin with vzero.
    change (fun k => nthZ vzero nodes k) with (at_node nodes). fold (at_node nodes a) (at_node nodes b) (at_node nodes c).
    cbn [map]. unfold barycentre. change (zlen [at_node nodes a; at_node nodes b; at_node nodes c]) with 3.
    match goal with |- context [get [?x; ?y; ?z; ?w] 0] => change (get [x; y; z; w] 0) with (Ok x); change (get [x; y; z; w] 1) with (Ok y); change (get [x; y; z; w] 2) with (Ok z) end. cbn [bind].
    unfold vsum, vscal; cbn [fold_right vadd px py pz]. do 2 f_equal; cbn [vzero px py pz]; field.
  - destruct (list4 r HL) as (a & b & c & d & ->). unfold cell_row_3d, row_pt. change (nthZ 0 [a; b; c; d] 0) with a. change (nthZ 0 [a; b; c; d] 1) with b. change (nthZ 0 [a; b; c; d] 2) with c. change (nthZ 0 [a; b; c; d] 3) with d. unfold coord. change origin with vzero.
    fold (at_node nodes a) (at_node nodes b) (at_node nodes c) (at_node nodes d).
    cbn [map]. unfold barycentre. change (zlen [at_node nodes a; at_node nodes b; at_node nodes c; at_node nodes d]) with 4. cbv zeta.
    match goal with |- context [get [?x; ?y; ?z; ?w] 0] => change (get [x; y; z; w] 0) with (Ok x); change (get [x; y; z; w] 1) with (Ok y); change (get [x; y; z; w] 2) with (Ok z) end. cbn [bind].
    unfold vsum, vscal; cbn [fold_right vadd px py pz]. do 2 f_equal; cbn [vzero px py pz]; field.
Qed.
Lemma filter_all {A} (p : A -> bool) l : (forall x, In x l -> p x = true) -> filter p l = l.
Proof. induction l as [|x l IH]; intros H; [reflexivity|]. cbn [filter]. rewrite (H x (or_introl eq_refl)), IH by (intros y Hy; apply H; right; exact Hy). reflexivity. Qed.
Definition no_local : local := {| lo_cells := []; lo_vertex := []; lo_label := []; lo_ext := []; lo_center := []; lo_node := []; lo_cell := []; lo_neigh := []; lo_parts := [] |}.

Section Read.
Context (dim SIZE : Z) (cells : list (list Z)) (nodes : list pt) (labels npart0 epart : list Z).
Hypothesis VM : valid_mesh dim cells nodes labels.
Hypothesis VS : valid_split dim SIZE cells nodes npart0 epart.
Let WF := vm_mesh _ _ _ _ VM.
Lemma input_ok : 1 < SIZE -> wf_input dim SIZE cells nodes labels npart0 epart.
Proof.
  intros H1. destruct (vs_several _ _ _ _ _ _ VS H1) as (LN & _). constructor.
  - exact (wm_dim _ _ _ WF).
  - exact (vs_size _ _ _ _ _ _ VS).
  - intros c Hc. apply (wm_rows _ _ _ WF), nthZ_In, Hc.
  - intros c k Hc Hk. apply (wm_rows _ _ _ WF (nodes_of cells c)); [apply nthZ_In, Hc | exact Hk].
  - apply (proj1 (vs_owners _ _ _ _ _ _ VS)).
  - apply (proj2 (vs_owners _ _ _ _ _ _ VS)).
  - exact LN.
  - exact (proj1 (vm_labels _ _ _ _ VM)).
Qed.
Lemma owned_all : SIZE = 1 -> owned cells epart 0 = range (zlen cells).
Proof.
  intros E1. unfold owned. apply filter_all. intros c Hc. apply in_range in Hc. destruct (proj2 (vs_owners _ _ _ _ _ _ VS) c Hc). lia.
Qed.

Lemma read_alone : SIZE = 1 -> exists md L, partition_and_read dim SIZE cells nodes labels npart0 epart = Ok [md] /\ unpack SIZE md = Ok L /\ rank_ok dim SIZE cells nodes labels epart 0 L (range (zlen nodes)).
Proof.
  intros E1. pose proof (proj1 (vm_labels _ _ _ _ VM)) as LL. destruct (vs_alone _ _ _ _ _ _ VS E1) as (HC & HU).
  unfold partition_and_read. rewrite E1. cbn [Z.eqb Pos.eqb]. change (range 1) with [0]. cbn [mapM]. rewrite (C08_sequential_file_roundtrip 0 cells nodes labels [] (eq_sym LL)). cbn [bind].
  match goal with |- context [Ok [?m]] => exists m end. unfold unpack. cbn [md_vertex md_centvol md_nodeid md_halosext md_nodeloctoglob md_loctoglob md_neigh md_nparts].
  change (map (fun n : pt * Z => [px (fst n); py (fst n); pz (fst n); IZR (snd n)]) (combine nodes labels)) with (map node_row (combine nodes labels)).
  rewrite rows_pt, rows_label. cbn [bind mapM Z.eqb Pos.eqb hd].
  assert (EF : map fst (combine nodes labels) = nodes /\ map snd (combine nodes labels) = labels).
  { unfold zlen in LL. assert (LL' : length nodes = length labels) by lia. clear - LL'. revert labels LL'. induction nodes as [|x n IH]; intros [|y m] H; try discriminate; [split; reflexivity|]. injection H as H. destruct (IH m H) as (A & B). cbn. rewrite A, B. auto. }
  destruct EF as (-> & ->). eexists. split; [reflexivity|]. split; [reflexivity|]. pose proof (zlen_nonneg nodes).
  assert (NE : forall c, iscell cells c -> owner epart c = 0) by (intros c Hc; destruct (proj2 (vs_owners _ _ _ _ _ _ VS) c Hc); lia).
  constructor; cbn [lo_cell lo_cells lo_vertex lo_label lo_node lo_ext lo_center lo_neigh lo_parts].
  - symmetry. apply owned_all. exact E1.
  - apply NoDup_range.
  - intros g. rewrite in_range. split.
    + intros Hg. destruct (HU g Hg) as (c & Hc & HI). exists c. split; [exact Hc|]. split; [apply NE; exact Hc | exact HI].
    + intros (c & Hc & _ & HI). apply (wm_rows _ _ _ WF (cell cells c)); [apply nthZ_In; exact Hc | exact HI].
  - rewrite <- (map_nthZ_range [] cells) at 2. assert (X : forall l, (forall c, In c l -> iscell cells c) -> Forall2 (fun c e => map (nthZ (-1) (range (zlen nodes))) e = cell cells c /\ Forall (fun k => 0 <= k < zlen (range (zlen nodes))) e) l (map (nthZ [] cells) l)).
    { induction l as [|c l IH]; intros Hl; [constructor|]. constructor; [|apply IH; intros c' Hc'; apply Hl; right; exact Hc']. assert (Hc : iscell cells c) by (apply Hl; left; reflexivity).
      assert (HR : forall k, In k (cell cells c) -> 0 <= k < zlen nodes) by (intros k Hk; apply (wm_rows _ _ _ WF (cell cells c)); [apply nthZ_In; exact Hc | exact Hk]). split.
      - fold (cell cells c). rewrite <- (map_id (cell cells c)) at 2. apply map_ext_in. intros k Hk. apply nthZ_range. apply HR, Hk.
      - rewrite zlen_range by lia. apply Forall_forall. exact HR. }
    apply X. intros c Hc. apply in_range in Hc. exact Hc.
  - symmetry. apply (map_nthZ_range vzero nodes).
  - rewrite <- LL. symmetry. apply (map_nthZ_range 0 labels).
  - rewrite zlen_range by lia. reflexivity.
  - intros row. split; [intros []|]. intros (c & _ & Hc & Ho & _). exfalso. apply Ho, NE, Hc.
  - constructor.
  - reflexivity.
  - intros p. split; [intros []|]. intros (Np & c & c' & Hc & Hc' & E2 & E3 & _). rewrite (NE c' Hc') in E3. congruence.
  - lia.
Qed.

Lemma read_several : 1 < SIZE -> exists pa mds Ls, readmesh_parallel dim SIZE cells nodes labels npart0 epart = Ok pa /\ partition_and_read dim SIZE cells nodes labels npart0 epart = Ok mds /\ mapM (unpack SIZE) mds = Ok Ls /\ zlen Ls = SIZE /\
  prepare_comm SIZE (map comm_part mds) = prepare_comm SIZE (pa_files pa) /\
  forall r, 0 <= r < SIZE -> let f := file_of empty_file pa r in let L := nthZ no_local Ls r in
    rank_ok dim SIZE cells nodes labels epart r L (rf_nodeloctoglob f) /\ lo_ext L = rf_halosext f /\ lo_cell L = rf_loctoglob f.
Proof.
  intros H1. pose proof (input_ok H1) as WI. destruct (vs_several _ _ _ _ _ _ VS H1) as (LN & MC & _).
  destruct (C07_partition_writing_succeeds _ _ _ _ _ _ _ WI MC) as (pa & Epa & _ & LF & HF & LP & HP).
  pose proof (C08_rank_files_roundtrip _ _ _ _ _ _ _ _ H1 WI MC Epa) as HR. cbv zeta in HR.
  set (rd := fun r => do file <- write_file pa r; read_mesh_file SIZE r file (write_master pa)).
  assert (HRD : forall r, 0 <= r < SIZE -> exists md, rd r = Ok md /\ let f := file_of empty_file pa r in md_nodeid md = rf_elements f /\ md_vertex md = map node_row (rf_nodes f) /\ md_halosint md = rf_halosint f /\ md_halosext md = rf_halosext f /\
     md_centvol md = rf_centvol f /\ md_loctoglob md = rf_loctoglob f /\ md_nodeloctoglob md = rf_nodeloctoglob f /\ md_neigh md = [rf_neigh f; rf_neighcount f] /\ md_nparts md = pa_nparts pa).
  { intros r Hr. destruct (HR r Hr) as (file & md & A & B & _ & C1 & C2 & C3 & C4 & C5 & C6 & C7 & C8 & C9 & _). exists md. unfold rd. rewrite A. cbn [bind]. rewrite B. split; [reflexivity|]. cbv zeta. repeat split; assumption. }
  destruct (mapM_total rd (range SIZE)) as (mds & Em). { intros r Hr. apply in_range in Hr. destruct (HRD r Hr) as (md & E & _). exists md. exact E. }
  pose proof (mapM_zlen _ _ _ Em) as Lm. rewrite zlen_range in Lm by lia.
  set (md0 := {| md_tc := []; md_nodeid := []; md_vertex := []; md_halosint := []; md_halosext := []; md_centvol := []; md_globtoloc := []; md_loctoglob := []; md_nodeloctoglob := []; md_neigh := []; md_nparts := [] |}).
  assert (Hmd : forall r, 0 <= r < SIZE -> rd r = Ok (nthZ md0 mds r)). { intros r Hr. rewrite <- (mapM_nthZ rd (range SIZE) mds 0 md0 r Em) by (rewrite zlen_range; lia). rewrite nthZ_range by lia. reflexivity. }
  assert (Hun : forall r, 0 <= r < SIZE -> let f := file_of empty_file pa r in exists L, unpack SIZE (nthZ md0 mds r) = Ok L /\ rank_ok dim SIZE cells nodes labels epart r L (rf_nodeloctoglob f) /\ lo_ext L = rf_halosext f /\ lo_cell L = rf_loctoglob f).
  { intros r Hr f. destruct (HRD r Hr) as (md & E & A). rewrite (Hmd r Hr) in E. injection E as E. rewrite E. cbv zeta in A. fold f in A. destruct A as (A1 & A2 & A3 & A4 & A5 & A6 & A7 & A8 & A9).
    pose proof (HF r Hr) as FO. fold f in FO. unfold unpack. rewrite A1, A2, A4, A5, A6, A7, A8, A9. rewrite rows_pt, rows_label. cbn [bind].
    destruct (C05_halo_complete_and_exact _ _ _ _ _ _ _ _ WI MC Epa r Hr) as (X1 & X2 & X3). fold f in X1, X2, X3.
    rewrite X3. rewrite (mapM_map_ok _ row_pt (fun row => cell_centre dim nodes (tl row))).
    2: { intros row HI. apply X1 in HI as (c & -> & Hc & _). cbn [tl]. apply cell_row_pt; [exact (wm_dim _ _ _ WF)|]. apply (wm_rows _ _ _ WF), nthZ_In, Hc. }
    cbn [bind hd]. replace (SIZE =? 1) with false by lia. eexists. split; [reflexivity|]. split; [|split; reflexivity].
    constructor; cbn [lo_cell lo_cells lo_vertex lo_label lo_node lo_ext lo_center lo_neigh lo_parts].
    - exact (fo_l2g _ _ _ _ _ _ _ FO).
    - exact (fo_nodup _ _ _ _ _ _ _ FO).
    - exact (fo_nodes_in _ _ _ _ _ _ _ FO).
    - exact (fo_elements _ _ _ _ _ _ _ FO).
    - rewrite (fo_nodes _ _ _ _ _ _ _ FO), map_map. reflexivity.
    - rewrite (fo_nodes _ _ _ _ _ _ _ FO), map_map. reflexivity.
    - replace (SIZE =? 1) with false by lia. reflexivity.
    - exact X1.
    - exact X2.
    - reflexivity.
    - exact (fo_neigh_in _ _ _ _ _ _ _ FO).
    - intros _. split; [exact LP|]. exact HP. }
  destruct (mapM_total (unpack SIZE) mds) as (Ls & EL). { intros md Hm. apply In_nthZ with (d := md0) in Hm as (r & Hr & <-). rewrite Lm in Hr. destruct (Hun r Hr) as (L & E & _). exists L. exact E. }
  exists pa, mds, Ls. split; [exact Epa|]. split; [unfold partition_and_read; replace (SIZE =? 1) with false by lia; rewrite Epa; exact Em|]. split; [exact EL|]. split; [rewrite (mapM_zlen _ _ _ EL); exact Lm|]. split.
  - assert (EF : forall r, 0 <= r < SIZE -> let a := nthZ empty_file (map comm_part mds) r in let b := nthZ empty_file (pa_files pa) r in rf_neigh a = rf_neigh b /\ rf_neighcount a = rf_neighcount b /\ rf_loctoglob a = rf_loctoglob b /\ rf_halosint a = rf_halosint b).
    { intros r Hr. cbv zeta. rewrite (nthZ_map comm_part md0) by lia. destruct (HRD r Hr) as (md & E & A). rewrite (Hmd r Hr) in E. injection E as E. rewrite E. cbv zeta in A. destruct A as (A1 & A2 & A3 & A4 & A5 & A6 & A7 & A8 & A9). unfold comm_part. rewrite A3, A6, A8. cbn. auto. }
    assert (Lc : zlen (map comm_part mds) = SIZE) by (rewrite zlen_map; exact Lm). unfold prepare_comm. set (g := fun f => scount_full SIZE (rf_neigh f) (rf_neighcount f)).
    assert (E1 : mapM g (map comm_part mds) = mapM g (pa_files pa)).
    { rewrite <- (map_nthZ_range empty_file (map comm_part mds)), <- (map_nthZ_range empty_file (pa_files pa)), Lc, LF. assert (X : forall l, (forall r, In r l -> 0 <= r < SIZE) -> mapM g (map (nthZ empty_file (map comm_part mds)) l) = mapM g (map (nthZ empty_file (pa_files pa)) l)).
      { induction l as [|r l IH]; intros Hl; [reflexivity|]. cbn [map mapM]. rewrite IH by (intros x Hx; apply Hl; right; exact Hx). destruct (EF r (Hl r (or_introl eq_refl))) as (B1 & B2 & _). unfold g at 1 3. rewrite B1, B2. reflexivity. }
      apply X. intros r Hr. apply in_range in Hr. exact Hr. }
    rewrite E1. destruct (mapM g (pa_files pa)) as [sc|e]; cbn [bind]; [|reflexivity].
    assert (X : forall l, (forall r, In r l -> 0 <= r < SIZE) -> mapM (fun r => do f <- get (map comm_part mds) r; prepare_comm_rank SIZE sc f r) l = mapM (fun r => do f <- get (pa_files pa) r; prepare_comm_rank SIZE sc f r) l).
    { induction l as [|r l IH]; intros Hl; [reflexivity|]. cbn [mapM]. rewrite IH by (intros x Hx; apply Hl; right; exact Hx). pose proof (Hl r (or_introl eq_refl)) as Hr. rewrite !(get_nthZ empty_file) by lia. cbn [bind]. destruct (EF r Hr) as (B1 & B2 & B3 & B4). unfold prepare_comm_rank. rewrite B1, B3, B4. reflexivity. }
    apply X. intros r Hr. apply in_range in Hr. exact Hr.
  - intros r Hr f L. destruct (Hun r Hr) as (L' & E & A). assert (EE : L = L'). { unfold L. pose proof (mapM_nthZ (unpack SIZE) mds Ls md0 no_local r EL ltac:(lia)) as X. rewrite E in X. injection X as X. symmetry. exact X. } rewrite EE. exact A.
Qed.
End Read.
