(** * Proofs_per3: the domain built for a periodic mesh on one rank. *)
From Coq Require Import Reals Lra Permutation Sorted.
From Verif Require Import Py PyLemmas Model_part Model_label Model_conn Spec_conn Proofs_conn1 Proofs_conn2 Proofs_conn3 Model_geom Spec_geom Proofs_geom1 Proofs_geom2 Proofs_geom3
  Model_halo Spec_halo Proofs_halo1 Proofs_halo2 Proofs_halo3 Properties_halo Model_periodic Spec_periodic Proofs_periodic Proofs_periodic2 Proofs_periodic3
  Model_interp Spec_interp Proofs_interp1 Proofs_interp2 Proofs_interp4 Properties_interp Model_fvm Spec_fvm Model_bc Model_linsys Model_domain Spec_domain Proofs_domain1 Proofs_domain2 Proofs_domain4
  Model_parallel Spec_parallel Properties_parallel Proofs_run3 Spec_per Proofs_per1 Proofs_per2.
Open Scope Z_scope.

(** ** what the domain shares with the one with all nodes labelled 1, and what it does not *)
Inductive tface (f32 : R -> R) (dim : Z) (cells : list (list Z)) (nodes : list pt) (labels : list Z) (D D1 : domain) (f : Z) : Prop :=
| TInner (a b : Z) (row : nthZ [] (dm_cellid D) f = [a; b]) (row1 : nthZ [] (dm_cellid D1) f = [a; b]) (name : nthZ 0 (dm_name D) f = 0) (name1 : nthZ 0 (dm_name D1) f = 0)
    (cb : iscell cells b)
| TPlain (a : Z) (row : nthZ [] (dm_cellid D) f = [a; -1]) (row1 : nthZ [] (dm_cellid D1) f = [a; -1]) (name : nthZ 0 (dm_name D) f = flabel dim labels (fset D1 f)) (name1 : nthZ 0 (dm_name D1) f = 1)
    (one : only_cell dim cells a (fset D1 f)) (plain : 1 <= flabel dim labels (fset D1 f) <= 2 * dim)
| TPeriodic (a f' : Z) (row : nthZ [] (dm_cellid D) f = [a; left_of D1 f']) (row1 : nthZ [] (dm_cellid D1) f = [a; -1]) (name : nthZ 0 (dm_name D) f = flabel dim labels (fset D1 f)) (name1 : nthZ 0 (dm_name D1) f = 1)
    (one : only_cell dim cells a (fset D1 f)) (periodic : is_periodic dim (flabel dim labels (fset D1 f)) = true) (other : isface D1 f') (one' : only_cell dim cells (left_of D1 f') (fset D1 f'))
    (face : exists ax L, In ax (axes dim) /\ periodic_direction dim cells nodes labels f32 ax L /\
       (flabel dim labels (fset D1 f) = low_label ax /\ flabel dim labels (fset D1 f') = high_label ax /\ Spec_periodic.across ax L (centre_of nodes (fset D1 f)) (centre_of nodes (fset D1 f')) \/
        flabel dim labels (fset D1 f') = low_label ax /\ flabel dim labels (fset D1 f) = high_label ax /\ Spec_periodic.across ax L (centre_of nodes (fset D1 f')) (centre_of nodes (fset D1 f)))).
Record twins (f32 : R -> R) (dim : Z) (cells : list (list Z)) (nodes : list pt) (labels : list Z) (D D1 : domain) : Prop := {
  tw_dim : dm_dim D = dim;
  tw_cells : dm_center D = dm_center D1 /\ dm_volume D = dm_volume D1 /\ dm_faceid D = dm_faceid D1 /\ dm_loctoglob D = dm_loctoglob D1 /\ zlen (dm_shift D) = zlen (dm_center D);
  tw_faces : dm_facenodes D = dm_facenodes D1 /\ dm_normal D = dm_normal D1 /\ dm_mesure D = dm_mesure D1 /\ dm_fcenter D = dm_fcenter D1 /\ zlen (dm_cellid D) = zlen (dm_facenodes D1) /\ zlen (dm_name D) = zlen (dm_facenodes D1) /\ zlen (dm_halofid D) = zlen (dm_facenodes D1);
  tw_nodes : dm_vertex D = nodes /\ dm_vertex D1 = nodes /\ dm_old D = labels /\ dm_nodename D = labels /\ dm_nodeglob D = dm_nodeglob D1;
  tw_halos : dm_centerh D = [] /\ dm_centerh D1 = [] /\ dm_hext D = [] /\ dm_hext D1 = [] /\ dm_haloghost D = dm_haloghost D1 /\ dm_hginfo D = dm_hginfo D1 /\ dm_nhg D = dm_nhg D1;
  tw_face : forall f, isface D1 f -> tface f32 dim cells nodes labels D D1 f }.

Section Dom.
Context (f32 : R -> R) (dim : Z) (cells : list (list Z)) (nodes : list pt) (labels npart0 epart : list Z).
Hypothesis PM : periodic_mesh dim cells nodes labels f32.
Hypothesis VS : valid_split dim 1 cells nodes npart0 epart.
Notation WF := (pm_mesh _ _ _ _ _ PM).
Notation HN := (proj1 (pm_labels _ _ _ _ _ PM)).
Notation Hd := (wm_dim _ _ _ (pm_mesh _ _ _ _ _ PM)).
Notation ones := (ones nodes).
Notation K := (alone (zlen nodes) (zlen cells)).
Context (g1 : geometry) (cn : conn) (h1 : halostruct) (nodecell cellnid : list (list Z)) (nv1 : list nodevar) (di1 : list diamond).
Hypothesis P1 : parts dim 1 cells nodes ones K g1 cn h1 nodecell cellnid.
Notation D1 := (assembled dim cells nodes ones K g1 cn h1 nodecell cellnid nv1 di1).
Hypothesis PA : part_of dim cells nodes ones epart 0 D1.
Notation VR := (VR1 f32 dim cells nodes labels npart0 epart PM VS).
Notation Hcn := (bu_cn _ _ _ _ _ _ _ _ _ _ _ P1).
Notation EL := (bu_el _ _ _ _ _ _ _ _ _ _ _ P1).
Notation HF1 := (bu_hf _ _ _ _ _ _ _ _ _ _ _ P1).
Notation nf := (zlen (ge_facenodes g1)).
Context (g : geometry) (h : halostruct).
Hypothesis Hg : build_geometry dim cells nodes labels = Ok g.
Hypothesis Eh : create_halo_structure dim 1 g nodes labels [] [] = Ok h.
Notation Fs := (Fs cn).

Lemma SG : ge_conn g = cn /\ ge_cells g = ge_cells g1 /\ ge_facenodes g = ge_facenodes g1 /\ map fg_normal (ge_faces g) = map fg_normal (ge_faces g1) /\
  map fg_mesure (ge_faces g) = map fg_mesure (ge_faces g1) /\ map fg_center (ge_faces g) = map fg_center (ge_faces g1).
Proof. rewrite <- (bu_ecn _ _ _ _ _ _ _ _ _ _ _ P1). apply (same_geometry dim cells nodes labels ones g g1 WF HN (ones_len nodes) Hg (bu_g _ _ _ _ _ _ _ _ _ _ _ P1)). Qed.
Lemma faces_labels : ge_faces g = map (facegeo_of dim nodes labels cells cn) (range nf).
Proof. destruct (geometry_facts dim nodes labels cells WF HN g Hg) as (cn' & Hcn' & _ & _ & Ef & ELn & _). rewrite Hcn in Hcn'. injection Hcn' as <-. destruct SG as (_ & _ & E & _). rewrite E in Ef. exact Ef. Qed.
Lemma HS : ghost_claim dim nodes g h /\ h_cellid h = cn_cellid cn /\ h_name h = map fg_name (ge_faces g) /\ h_nodename h = labels /\ h_loctoglob h = range (zlen nodes) /\
  h_halofid h = zeros_like 0 nf /\ h_nodehalo h = zeros_like [0; 0] (zlen nodes) /\ h_cellhalo h = zeros_like [0; 0] (zlen cells).
Proof.
  destruct (sequential dim nodes labels cells WF HN (pm_nonflat _ _ _ _ _ PM) g Hg [] []) as (h' & E & GC & Ec & En & Enn & Elg). rewrite Eh in E. injection E as <-. destruct SG as (S1 & S2 & S3 & _). rewrite S1 in Ec.
  assert (EH : h_halofid h = zeros_like 0 (zlen (ge_facenodes g)) /\ h_nodehalo h = zeros_like [0; 0] (zlen nodes) /\ h_cellhalo h = zeros_like [0; 0] (zlen (map cg_nodes (ge_cells g)))).
  { revert Eh. unfold create_halo_structure. cbn [Z.ltb Z.compare Pos.compare Pos.compare_cont bind]. intros E. apply bind_ok in E as (gg & _ & E). apply bind_ok in E as (ch & _ & E). injection E as <-. cbn. auto. }
  destruct EH as (EH1 & EH2 & EH3). rewrite S3 in EH1. rewrite S2, (bu_ecs _ _ _ _ _ _ _ _ _ _ _ P1), !zlen_map in EH3. auto 10.
Qed.
Lemma name_at f : 0 <= f < nf -> nthZ 0 (h_name h) f = if cright cn f =? -1 then flabel dim labels (Fs f) else 0.
Proof.
  intros Hf. destruct HS as (_ & _ & -> & _). rewrite faces_labels, map_map. rewrite (nthZ_map _ 0) by (rewrite zlen_range; lia). rewrite nthZ_range by lia. cbn [facegeo_of fg_name]. destruct (cright cn f =? -1); [|reflexivity].
  unfold label, flabel. assert (Hf' : 0 <= f < zlen (cn_faces cn)) by (rewrite <- EL; exact Hf). destruct (face_row dim nodes cells WF cn Hcn f Hf') as (HLF & _). fold (Fs f) in HLF |- *. change (nthZ [] (cn_faces cn) f) with (Fs f). destruct Hd as [E | E]; rewrite E in HLF |- *.
  - destruct (list2 _ HLF) as (x & y & ->). cbn [map]. apply name2_spec.
  - destruct (list3 _ HLF) as (x & y & z & ->). cbn [map]. apply name3_spec.
Qed.
(** inside or on the boundary *)
Lemma kinds f : 0 <= f < nf -> has_facet dim cells (cleft cn f) (Fs f) /\
  ((exists b, nthZ 0 (h_name h) f = 0 /\ nthZ 0 (h_name h1) f = 0 /\ nthZ [] (h_cellid h) f = [cleft cn f; b] /\ nthZ [] (h_cellid h1) f = [cleft cn f; b] /\ iscell cells b) \/
   nthZ 0 (h_name h) f = flabel dim labels (Fs f) /\ nthZ 0 (h_name h1) f = 1 /\ nthZ [] (h_cellid h) f = [cleft cn f; -1] /\ nthZ [] (h_cellid h1) f = [cleft cn f; -1] /\ only_cell dim cells (cleft cn f) (Fs f)).
Proof.
  intros Hf. assert (Hf' : 0 <= f < zlen (cn_faces cn)) by (rewrite <- EL; exact Hf). destruct (cellid_row dim nodes cells WF cn Hcn f Hf') as (ER & _). destruct HS as (_ & Ec & _).
  destruct (fcase dim 1 cells nodes ones K VR g1 cn h1 nodecell cellnid P1 f Hf) as (HL & HC). split; [exact HL|].
  assert (EN := name_at f Hf). assert (EC : nthZ [] (h_cellid h1) f = [cleft cn f; cright cn f]).
  { rewrite <- ER. destruct (hf_face _ _ _ _ _ _ _ _ HF1 f Hf) as (_ & B). rewrite (bu_ecn _ _ _ _ _ _ _ _ _ _ _ P1) in B. apply B. intros c Hc. exact (no_cut cells nodes _ _ Hc). }
  destruct HC as [E0 b E1 E2 E3 E4 E5 | E0 E1 E2 E3 E4 | E0 E1 E2 E3].
  - left. exists b. rewrite EC in E1. injection E1 as E1. destruct E3 as (Hb & _). assert (b <> -1) by (unfold iscell in Hb; lia). rewrite EN, E1. replace (b =? -1) with false by lia. rewrite Ec, ER, EC, E1. auto.
  - right. rewrite EC in E1. injection E1 as E1. rewrite EN, E1, Ec, ER, EC, E1. cbn [Z.eqb Pos.eqb]. split; [reflexivity|]. split; [|auto]. rewrite E4. exact (ones_label f32 dim cells nodes labels PM _ _ HL).
  - destruct (no_cut cells nodes _ _ E3).
Qed.
Lemma fset_Fs f : 0 <= f < nf -> fset D1 f = Fs f /\ gface D1 f (Fs f).
Proof.
  intros Hf. destruct (kinds f Hf) as (HL & _). assert (GF : gface D1 f (Fs f)).
  { split; [exact Hf|]. cbn [assembled dm_facenodes]. assert (E : map (gnode D1) (nthZ [] (ge_facenodes g1) f) = nthZ [] (ge_facenodes g1) f).
    { rewrite <- map_id. apply map_ext_in. intros k Hk. unfold gnode. cbn [assembled dm_nodeglob]. rewrite (hf_loctoglob _ _ _ _ _ _ _ _ HF1). cbn [Z.eqb Pos.eqb]. apply nthZ_range. apply (face_nodes dim 1 cells nodes ones K VR g1 cn h1 nodecell cellnid P1 f Hf). exact Hk. }
    rewrite E. apply (bu_pf _ _ _ _ _ _ _ _ _ _ _ P1 f Hf). }
  split; [exact (fset_eq dim cells D1 f _ _ HL GF) | exact GF].
Qed.
Lemma face_of c F : has_facet dim cells c F -> exists f, 0 <= f < nf /\ Fs f = F.
Proof.
  intros HF. destruct (c11 dim (zlen nodes) _ (WFo dim nodes cells WF)) as (c' & Ec' & _ & HFa & _). rewrite Hcn in Ec'. injection Ec' as <-.
  assert (HI : In F (cn_faces cn)) by (apply HFa; exists c; apply has_facet_o; [exact WF | exact HF]). apply In_nthZ with (d := []) in HI. destruct HI as (f & Hf & EF). exists f. split; [rewrite EL; exact Hf | exact EF].
Qed.
Lemma Fs_inj f f' : 0 <= f < nf -> 0 <= f' < nf -> Fs f = Fs f' -> f = f'.
Proof.
  intros Hf Hf'. destruct (c11 dim (zlen nodes) _ (WFo dim nodes cells WF)) as (c' & Ec' & ND & _). rewrite Hcn in Ec'. injection Ec' as <-. rewrite EL in Hf, Hf'. apply Proofs_parallel1.nthZ_inj_NoDup; assumption.
Qed.
Lemma only_boundary c F f : only_cell dim cells c F -> 0 <= f < nf -> Fs f = F -> c = cleft cn f /\ nthZ 0 (h_name h) f = flabel dim labels F.
Proof.
  intros (HF & HO) Hf <-. destruct (kinds f Hf) as (HL & [(b & _ & _ & E1 & E1' & Hb)|(E0 & _ & _ & _ & OC)]).
  - exfalso. destruct (fcase dim 1 cells nodes ones K VR g1 cn h1 nodecell cellnid P1 f Hf) as (_ & [X0 b' X1 X2 X3 X4 X5 | X0 X1 X2 X3 X4 | X0 X1 X2 X3]).
    + rewrite (HO _ HL) in X2. rewrite (HO _ X3) in X2. lia.
    + rewrite X1 in E1'. injection E1' as <-. unfold iscell in Hb. lia.
    + destruct (no_cut cells nodes _ _ X3).
  - split; [symmetry; apply HO; exact HL | exact E0].
Qed.

(** ** the periodic tables *)
Notation I := {| pi_fcenter := map fg_center (ge_faces g); pi_cellnid := cellnid; pi_vertex := nodes; pi_nodecell := nodecell |}.
Lemma len_name' : zlen (h_name h) = nf.
Proof. destruct HS as ((_ & _ & L & _) & _). destruct SG as (_ & _ & E & _). rewrite E in L. exact L. Qed.
Lemma len_faces' : zlen (ge_faces g) = nf. Proof. rewrite faces_labels, zlen_map, zlen_range by apply zlen_nonneg. reflexivity. Qed.
Lemma center_at' f : 0 <= f < nf -> nthZ vzero (map fg_center (ge_faces g)) f = centre_of nodes (Fs f).
Proof.
  intros Hf. destruct (fset_Fs f Hf) as (_ & GF). destruct (pa_geometry _ _ _ _ _ _ _ PA f _ GF) as (_ & _ & E). destruct SG as (_ & _ & _ & _ & _ & ->). exact E.
Qed.
Lemma labelled_face l f : l <> 0 -> labelled (h_name h) l f <-> 0 <= f < nf /\ only_cell dim cells (cleft cn f) (Fs f) /\ flabel dim labels (Fs f) = l.
Proof.
  intros NZ. unfold labelled. rewrite len_name'. split.
  - intros (Hf & E). split; [exact Hf|]. destruct (kinds f Hf) as (_ & [(b & E0 & _)|(E0 & _ & _ & _ & OC)]); [congruence|]. split; [exact OC | congruence].
  - intros (Hf & OC & E). split; [exact Hf|]. destruct (only_boundary _ _ f OC Hf eq_refl) as (_ & ->). exact E.
Qed.
Lemma label_nonzero a : low_label a <> 0 /\ high_label a <> 0. Proof. destruct a; cbn; lia. Qed.
Lemma translate_across a L F G : 0 < zlen F -> translate nodes a L F G -> Spec_periodic.across a L (centre_of nodes F) (centre_of nodes G).
Proof.
  intros HL (G' & PG & FA). unfold centre_of. rewrite <- (barycentre_perm (map (at_node nodes) G') (map (at_node nodes) G) (Permutation_map _ PG)). apply across_barycentre; [|rewrite zlen_map; exact HL].
  clear PG HL. induction FA; cbn [map]; constructor; assumption.
Qed.
Lemma node_at k : 0 <= k < zlen nodes -> In (at_node nodes k) nodes. Proof. apply nthZ_In. Qed.
Lemma axis_periodic a L : periodic_direction dim cells nodes labels f32 a L -> periodic_axis f32 I (h_name h) labels a L.
Proof.
  intros PD. pose proof (label_nonzero a) as (NL & NH). pose proof Hd as Hdim.
  assert (FL : forall c F, has_facet dim cells c F -> 0 < zlen F) by (intros c F (_ & _ & E & _); lia).
  assert (TR : forall c F c' G, only_cell dim cells c F -> only_cell dim cells c' G -> flabel dim labels F = low_label a -> flabel dim labels G = high_label a -> translate nodes a L F G ->
    exists i j, 0 <= i < nf /\ 0 <= j < nf /\ Fs i = F /\ Fs j = G /\ facing a L (map fg_center (ge_faces g)) (h_name h) i j).
  { intros c F c' G OF OG EF EG T. destruct (face_of c F (proj1 OF)) as (i & Hi & Ei). destruct (face_of c' G (proj1 OG)) as (j & Hj & Ej). exists i, j. split; [exact Hi|]. split; [exact Hj|]. split; [exact Ei|]. split; [exact Ej|].
    destruct (only_boundary c F i OF Hi Ei) as (-> & N1). destruct (only_boundary c' G j OG Hj Ej) as (-> & N2). split; [split; [rewrite len_name'; exact Hi | congruence]|]. split; [split; [rewrite len_name'; exact Hj | congruence]|].
    rewrite !center_at', Ei, Ej by assumption. apply translate_across; [exact (FL _ _ (proj1 OF)) | exact T]. }
  destruct (pd_some _ _ _ _ _ _ _ PD) as (c0 & F0 & OC0 & EF0). destruct (pd_low _ _ _ _ _ _ _ PD c0 F0 OC0 EF0) as (c0' & G0 & OG0 & EG0 & T0).
  constructor; cbn [pi_vertex pi_fcenter].
  - split; [intros p Hp; apply (pd_box _ _ _ _ _ _ _ PD p Hp)|]. destruct T0 as (G' & PG & FA). pose proof (FL _ _ (proj1 OC0)) as LF. destruct F0 as [|x F0]; [cbn in LF; lia|]. inversion FA as [|x' y' F' G'' (A1 & A2) _ E1 E2]; subst.
    exists (at_node nodes y'). split; [|rewrite A2; destruct a; reflexivity]. apply node_at. apply (facet_in f32 dim cells nodes labels PM c0' G0 (proj1 OG0)). apply (Permutation_in _ PG). left; reflexivity.
  - split.
    + intros p Hp. apply In_nthZ with (d := vzero) in Hp as (f & Hf & <-). rewrite zlen_map, len_faces' in Hf. rewrite center_at' by exact Hf. destruct (kinds f Hf) as (HL & _). apply coord_barycentre_le; [rewrite zlen_map; exact (FL _ _ HL)|].
      intros p Hp. apply in_map_iff in Hp as (k & <- & Hk). apply (pd_box _ _ _ _ _ _ _ PD). apply node_at. exact (facet_in f32 dim cells nodes labels PM _ _ HL k Hk).
    + destruct (TR c0 F0 c0' G0 OC0 OG0 EF0 EG0 T0) as (i & j & Hi & Hj & _ & _ & (_ & _ & A1 & A2)). exists (nthZ vzero (map fg_center (ge_faces g)) j). split; [apply nthZ_In; rewrite zlen_map, len_faces'; exact Hj|]. rewrite A2. destruct a; reflexivity.
  - exact (pd_zero _ _ _ _ _ _ _ PD).
  - exact (pd_exact _ _ _ _ _ _ _ PD).
  - constructor.
    + intros i Hi. apply (labelled_face _ i NL) in Hi as (Hi & OC & EF). destruct (pd_low _ _ _ _ _ _ _ PD _ _ OC EF) as (c' & G & OG & EG & T). destruct (TR _ _ _ _ OC OG EF EG T) as (i' & j & Hi' & _ & Ei & _ & FA). apply Fs_inj in Ei; [|exact Hi' | exact Hi]. subst i'. exists j. exact FA.
    + intros j Hj. apply (labelled_face _ j NH) in Hj as (Hj & OC & EF). destruct (pd_high _ _ _ _ _ _ _ PD _ _ OC EF) as (c' & G & OG & EG & T). destruct (TR _ _ _ _ OG OC EG EF T) as (i & j' & _ & Hj' & _ & Ej & FA). apply Fs_inj in Ej; [|exact Hj' | exact Hj]. subst j'. exists i. exact FA.
    + intros l i j Hl Hi Hj SR. assert (NZ : l <> 0) by (destruct Hl as [-> | ->]; assumption). apply (labelled_face l i NZ) in Hi as (Hi & OCi & Ei). apply (labelled_face l j NZ) in Hj as (Hj & OCj & Ej). rewrite !center_at' in SR by assumption.
      apply Fs_inj; [exact Hi | exact Hj|]. apply (pd_distinct _ _ _ _ _ _ _ PD _ _ _ _ OCi OCj); [congruence | rewrite Ei; exact Hl | exact SR].
  - exact (pd_nodes _ _ _ _ _ _ _ PD).
Qed.
Lemma axis_plain a : plain_direction dim cells labels a -> not_periodic (h_name h) labels a.
Proof.
  intros (PF & PN). pose proof (label_nonzero a) as (NL & NH). split; [|exact PN].
  assert (X : forall l, l <> 0 -> In l (h_name h) -> exists c F, only_cell dim cells c F /\ flabel dim labels F = l).
  { intros l NZ Hl. apply In_nthZ with (d := 0) in Hl as (f & Hf & E). destruct (proj1 (labelled_face l f NZ) (conj Hf E)) as (_ & OC & EF). exists (cleft cn f), (Fs f). auto. }
  split; intros Hl; [destruct (X _ NL Hl) as (c & F & OC & EF); exact (proj1 (PF c F OC) EF) | destruct (X _ NH Hl) as (c & F & OC & EF); exact (proj2 (PF c F OC) EF)].
Qed.
Lemma axes_ok a : In a (axes dim) -> axis_ok f32 I (h_name h) labels a.
Proof. intros Ha. destruct (pm_directions _ _ _ _ _ PM a Ha) as [H|(L & H)]; [left; apply axis_plain; exact H | right; exists L; apply axis_periodic; exact H]. Qed.
Lemma wf_per : wf_periodic (zlen cells) (zlen nodes) I (h_cellid h) (h_nodeghost h) (h_name h) labels.
Proof.
  destruct (nc_len _ _ _ _ (bu_n _ _ _ _ _ _ _ _ _ _ _ P1)) as (N1 & N2). destruct HS as ((_ & LN & _) & EC & _). pose proof (faces_pos dim 1 cells nodes ones K VR g1 cn h1 nodecell cellnid P1) as FP. pose proof (vertex_pos dim 1 cells nodes ones K VR) as VP.
  assert (LC : zlen (h_cellid h) = nf). { rewrite EC, EL. assert (Hf : 0 <= 0 < zlen (cn_faces cn)) by (rewrite <- EL; lia). apply (cellid_row dim nodes cells WF cn Hcn 0 Hf). }
  constructor; cbn [pi_fcenter pi_vertex pi_nodecell pi_cellnid]; rewrite ?zlen_map, ?len_faces', ?len_name'; try assumption; try reflexivity; [apply zlen_nonneg | exact HN | | | |].
  - intros f Hf. destruct (kinds f Hf) as ((HL & _) & [(b & _ & _ & E & _)|(_ & _ & E & _)]); rewrite E; (split; [reflexivity | exact HL]).
  - intros c Hc. apply (cell_row_of dim 1 cells nodes ones K g1 cn h1 nodecell cellnid P1 c Hc).
  - intros i Hi. destruct (node_row_of dim 1 cells nodes ones K g1 cn h1 nodecell cellnid P1 i Hi) as (X1 & X2 & _). split; assumption.
  - apply (nc_width _ _ _ _ (bu_n _ _ _ _ _ _ _ _ _ _ _ P1)).
Qed.

(** ** the tables written by update_pediodic_info *)
Notation st0 := (start (zlen cells) (zlen nodes) (h_cellid h) (h_nodeghost h)).
Lemma periodic_axis_of l : is_periodic dim l = true -> exists a, In a (axes dim) /\ (l = low_label a \/ l = high_label a).
Proof.
  unfold is_periodic, is_x, is_y, is_z, axes. intros H. destruct Hd as [E|E]; rewrite E in *; cbn [Z.eqb Pos.eqb andb] in *; rewrite ?orb_false_r in H.
  - destruct (Z.eqb_spec l 11); [exists AX; cbn; auto|]. destruct (Z.eqb_spec l 22); [exists AX; cbn; auto|]. destruct (Z.eqb_spec l 33); [exists AY; cbn; auto|]. destruct (Z.eqb_spec l 44); [exists AY; cbn; auto | discriminate].
  - destruct (Z.eqb_spec l 11); [exists AX; cbn; auto|]. destruct (Z.eqb_spec l 22); [exists AX; cbn; auto|]. destruct (Z.eqb_spec l 33); [exists AY; cbn; auto|]. destruct (Z.eqb_spec l 44); [exists AY; cbn; auto|].
    destruct (Z.eqb_spec l 55); [exists AZ; cbn; auto|]. destruct (Z.eqb_spec l 66); [exists AZ; cbn; auto 6 | discriminate].
Qed.
Lemma not_periodic_label l a : is_periodic dim l = false -> In a (axes dim) -> l <> low_label a /\ l <> high_label a.
Proof.
  unfold is_periodic, is_x, is_y, is_z, axes. intros H Ha. destruct Hd as [E|E]; rewrite E in *; cbn [Z.eqb Pos.eqb andb In] in *; rewrite ?orb_false_r in H; repeat (apply orb_false_iff in H as (H & ?)); repeat (match goal with X : (_ || _)%bool = false |- _ => apply orb_false_iff in X as (? & ?) end).
  - destruct Ha as [<- | [<- | []]]; cbn; lia.
  - destruct Ha as [<- | [<- | [<- | []]]]; cbn; lia.
Qed.
Lemma tables : exists s', update_periodic f32 dim (zlen cells) (zlen nodes) I (h_cellid h) (h_nodeghost h) (h_name h) labels =
  Ok {| pt_cellid := ps_cellid s'; pt_fid := map (fun c => if c =? 0 then -1 else c) (ps_fid s'); pt_nid := pad_unique (ps_nid s'); pt_shift := ps_shift s'; pt_node := pad_unique (ps_node s'); pt_ghost := ps_ghost s' |} /\
  chainR f32 I (zlen cells) (zlen nodes) (h_name h) labels (h_cellid h) (dirs dim) st0 s'.
Proof. apply (update_periodic_ok f32 I (zlen cells) (zlen nodes) (h_name h) labels (h_cellid h) (h_nodeghost h) wf_per dim Hd axes_ok). Qed.
Context (s' : pstate).
Hypothesis CH : chainR f32 I (zlen cells) (zlen nodes) (h_name h) labels (h_cellid h) (dirs dim) st0 s'.
Lemma in_dirs a : In a (axes dim) -> In a (map fst (dirs dim)). Proof. rewrite dirs_axes. auto. Qed.
Lemma node_partner k : 0 <= k < zlen nodes -> is_periodic dim (nthZ 0 labels k) = true -> exists a j, In a (axes dim) /\ partner f32 I (h_name h) labels a nodes labels k j /\ 0 <= j < zlen nodes /\ (nthZ 0 labels k = low_label a \/ nthZ 0 labels k = high_label a).
Proof.
  intros Hk HP. destruct (periodic_axis_of _ HP) as (a & Ha & EL'). pose proof HN as LL. assert (Hk' : 0 <= k < zlen labels) by lia. assert (HI : In (nthZ 0 labels k) labels) by (apply nthZ_In; exact Hk').
  destruct (pm_directions _ _ _ _ _ PM a Ha) as [(_ & N1 & N2)|(L & PD)]; [exfalso; destruct EL' as [E|E]; rewrite E in HI; auto|].
  pose proof (pd_nodes _ _ _ _ _ _ _ PD) as PN. destruct EL' as [E|E].
  - destruct (pr_low _ _ _ _ _ PN k (conj Hk' E)) as (j & FA). exists a, j. split; [exact Ha|]. split; [exists L; split; [apply axis_periodic; exact PD | left; exact FA]|]. split; [destruct FA as (_ & (Hj & _) & _); lia | auto].
  - destruct (pr_high _ _ _ _ _ PN k (conj Hk' E)) as (j & FA). exists a, j. split; [exact Ha|]. split; [exists L; split; [apply axis_periodic; exact PD | right; exact FA]|]. split; [destruct FA as ((Hj & _) & _); lia | auto].
Qed.
(** an entry of a row of nodes._cellid is a cell or the padding *)
Lemma padding_entry k i : 0 <= k < zlen nodes -> 0 <= i < zlen (nthZ [] nodecell k) - 1 -> iscell cells (nthZ 0 (nthZ [] nodecell k) i) \/ nthZ 0 (nthZ [] nodecell k) i = -1.
Proof.
  intros Hk Hi. pose proof (vr_cells _ _ _ _ _ _ VR) as HC. pose proof (vertex_pos dim 1 cells nodes ones K VR) as VP.
  destruct (c10 dim (zlen nodes) _ (WFo dim nodes cells WF) VP) as (nc & cni & m & m' & E & _ & _ & HK & _); [rewrite zlen_ocells; exact HC|]. rewrite (bu_nodes _ _ _ _ _ _ _ _ _ _ _ P1) in E. injection E as <- <-.
  destruct (HK k Hk) as (L & ER & LM & _ & HI). rewrite ER in Hi |- *. rewrite !zlen_app in Hi. change (zlen [zlen L]) with 1 in Hi. rewrite app_assoc. rewrite nthZ_app_l by (rewrite zlen_app; lia).
  destruct (Z.lt_ge_cases i (zlen L)) as [H|H].
  - left. rewrite nthZ_app_l by lia. apply iscell_o with (dim := dim) (vertex := nodes). apply (HI (nthZ 0 L i)). apply nthZ_In. lia.
  - right. rewrite nthZ_app_r by lia. rewrite zlen_repeat in Hi. assert (RI : forall q j, 0 <= j < Z.of_nat q -> nthZ 0 (repeat (-1) q) j = -1) by (intros q j Hj; assert (IN : In (nthZ 0 (repeat (-1) q) j) (repeat (-1) q)) by (apply nthZ_In; unfold zlen; rewrite repeat_length; lia); apply repeat_spec in IN; exact IN). apply RI. lia.
Qed.
Lemma node_periodic_row k : 0 <= k < zlen nodes -> is_periodic dim (nthZ 0 labels k) = true -> row_ok (zlen cells) (nthZ [] (pad_unique (ps_node s')) k).
Proof.
  intros Hk HP. destruct (node_partner k Hk HP) as (a & j & Ha & PT & Hj & EL'). pose proof (iv_node _ _ _ _ _ (ch_inv _ _ _ _ _ _ _ _ _ _ CH)) as LN.
  destruct (node_row_of dim 1 cells nodes ones K g1 cn h1 nodecell cellnid P1 j Hj) as (_ & _ & HI).
  assert (E0 : nthZ [] (ps_node st0) k = []) by (cbn [start ps_node]; rewrite nthZ_zeros_like by exact Hk; reflexivity).
  assert (GO : nthZ [] (ps_node s') k = counted (nthZ [] nodecell j) -> row_ok (zlen cells) (nthZ [] (pad_unique (ps_node s')) k)).
  { intros E. apply pad_unique_ok; [rewrite LN; exact Hk|]. intros c Hc. rewrite E in Hc. apply HI in Hc as (Hc & _). exact Hc. }
  destruct (in_dec (fun p q : axis * bool => ltac:(repeat decide equality)) (a, true) (dirs dim)) as [HT|HT].
  { apply GO. rewrite (ch_node _ _ _ _ _ _ _ _ _ _ CH a k j HT PT), E0. reflexivity. }
  assert (HF : In (a, false) (dirs dim)) by (apply in_dirs, in_map_iff in Ha as ((b & x) & Eb & Hb); cbn [fst] in Eb; subst b; destruct x; [contradiction | exact Hb]).
  destruct (Z.eq_dec (nthZ 0 labels k) (second_label a)) as [E2|N2].
  { apply GO. rewrite (ch_node_second _ _ _ _ _ _ _ _ _ _ CH a k j (in_dirs a Ha) PT E2), E0. reflexivity. }
  assert (E1 : nthZ 0 labels k = first_label a) by (destruct a; cbn in *; lia).
  destruct (ch_node_first _ _ _ _ _ _ _ _ _ _ CH a k j HF PT E1) as (i & Hi & ER). rewrite E0 in ER. cbn [app] in ER. cbn [pi_nodecell] in Hi, ER.
  destruct (padding_entry j i Hj Hi) as [HC|HC].
  - apply pad_unique_ok; [rewrite LN; exact Hk|]. intros c Hc. rewrite ER in Hc. destruct Hc as [<- | []]. exact HC.
  - destruct (pad_unique_row (ps_node s') k) as (q & EQ); [rewrite LN; exact Hk|]. rewrite ER, HC in EQ. change (np_unique [-1]) with [-1] in EQ. destruct (row_ok_snoc (zlen cells) (nthZ [] (pad_unique (ps_node s')) k) [] ([-1] ++ repeat (-1) q)) as (A & _); [exact EQ | intros c [] | exact A].
Qed.
Lemma node_ghosts : zlen (pad_rows (map (map entry_of) (ps_ghost s'))) = zlen nodes /\ forall k, 0 <= k < zlen nodes -> ghost_row_ok nf (nthZ [] (pad_rows (map (map entry_of) (ps_ghost s'))) k).
Proof.
  pose proof (iv_ghost _ _ _ _ _ (ch_inv _ _ _ _ _ _ _ _ _ _ CH)) as LG. destruct HS as ((_ & LN & LM & Hcol & _ & Hno) & EC & _).
  destruct (ghost_padding nf (map (map entry_of) (ps_ghost s'))) as (A & B).
  - intros r Hr. apply In_nthZ with (d := []) in Hr as (k & Hk & <-). rewrite zlen_map, LG in Hk. rewrite (nthZ_map (map entry_of) []) by lia.
    destruct (is_periodic dim (nthZ 0 labels k)) eqn:HP.
    + right. destruct (node_partner k Hk HP) as (a & j & Ha & PT & Hj & _). rewrite (ch_ghost _ _ _ _ _ _ _ _ _ _ CH a k j (in_dirs a Ha) PT). reflexivity.
    + left. destruct (ch_node_other _ _ _ _ _ _ _ _ _ _ CH k Hk) as (_ & EG); [intros a Ha; rewrite dirs_axes in Ha; exact (not_periodic_label _ a HP Ha)|]. cbn [start ps_ghost] in EG. rewrite EG.
      intros e He. apply in_map_iff in He as (x & <- & Hx). destruct (Hno k Hk) as (HM & HE). destruct (HE x Hx) as (_ & E2 & _). assert (HG : In (ng_face x) (map ng_face (nthZ [] (h_nodeghost h) k))) by (apply in_map; exact Hx). rewrite HM in HG. apply filter_In in HG as (HG & _). apply in_range in HG.
      destruct SG as (S1 & _ & S3 & _). rewrite S3 in HG. cbn [entry_of g_cell g_last]. split; [|exact HG]. rewrite E2, (Hcol _ ltac:(rewrite S3; exact HG)), S1. destruct (kinds _ HG) as ((Hc & _) & _). unfold iscell, cleft in *. lia.
  - rewrite zlen_map, LG in A, B. auto.
Qed.
(** the cells of a face *)
Lemma cell_left f : 0 <= f < nf -> Spec_periodic.cell_of (h_cellid h) f = cleft cn f.
Proof. intros Hf. unfold Spec_periodic.cell_of. destruct (kinds f Hf) as (_ & [(b & _ & _ & E & _)|(_ & _ & E & _)]); rewrite E; reflexivity. Qed.
Lemma face_partner f : 0 <= f < nf -> is_periodic dim (nthZ 0 (h_name h) f) = true -> exists ax L f', In ax (axes dim) /\ periodic_direction dim cells nodes labels f32 ax L /\ 0 <= f' < nf /\
  nthZ [] (ps_cellid s') f = [cleft cn f; cleft cn f'] /\ only_cell dim cells (cleft cn f) (Fs f) /\ only_cell dim cells (cleft cn f') (Fs f') /\
  (flabel dim labels (Fs f) = low_label ax /\ flabel dim labels (Fs f') = high_label ax /\ Spec_periodic.across ax L (centre_of nodes (Fs f)) (centre_of nodes (Fs f')) \/
   flabel dim labels (Fs f') = low_label ax /\ flabel dim labels (Fs f) = high_label ax /\ Spec_periodic.across ax L (centre_of nodes (Fs f')) (centre_of nodes (Fs f))).
Proof.
  intros Hf HP. destruct (periodic_axis_of _ HP) as (a & Ha & EL'). pose proof (label_nonzero a) as (NL & NH).
  assert (HI : In (nthZ 0 (h_name h) f) (h_name h)) by (apply nthZ_In; rewrite len_name'; exact Hf).
  destruct (pm_directions _ _ _ _ _ PM a Ha) as [PP|(L & PD)].
  { exfalso. destruct (axis_plain a PP) as ((N1 & N2) & _). destruct EL' as [E|E]; rewrite E in HI; auto. }
  pose proof (axis_periodic a L PD) as PX. pose proof (Spec_periodic.pa_faces _ _ _ _ _ _ PX) as PF. cbn [pi_fcenter] in PF.
  assert (GO : forall i j, facing a L (map fg_center (ge_faces g)) (h_name h) i j -> 0 <= i < nf /\ 0 <= j < nf /\ only_cell dim cells (cleft cn i) (Fs i) /\ only_cell dim cells (cleft cn j) (Fs j) /\
     flabel dim labels (Fs i) = low_label a /\ flabel dim labels (Fs j) = high_label a /\ Spec_periodic.across a L (centre_of nodes (Fs i)) (centre_of nodes (Fs j)) /\
     nthZ [] (ps_cellid s') i = [cleft cn i; cleft cn j] /\ nthZ [] (ps_cellid s') j = [cleft cn j; cleft cn i]).
  { intros i j FA. pose proof FA as (HL & HH & AC). apply (labelled_face _ i NL) in HL as (Hi & OCi & Ei). apply (labelled_face _ j NH) in HH as (Hj & OCj & Ej). rewrite !center_at' in AC by assumption.
    assert (X1 := ch_face _ _ _ _ _ _ _ _ _ _ CH a i j (in_dirs a Ha) (ex_intro _ L (conj PX (or_introl FA)))). assert (X2 := ch_face _ _ _ _ _ _ _ _ _ _ CH a j i (in_dirs a Ha) (ex_intro _ L (conj PX (or_intror FA)))).
    rewrite !cell_left in X1, X2 by assumption. auto 12. }
  assert (HfN : 0 <= f < zlen (h_name h)) by (rewrite len_name'; exact Hf).
  destruct EL' as [E|E].
  - destruct (pr_low _ _ _ _ _ PF f (conj HfN E)) as (f' & FA). destruct (GO _ _ FA) as (_ & Hj & O1 & O2 & E1 & E2 & AC & R1 & _). exists a, L, f'. auto 12.
  - destruct (pr_high _ _ _ _ _ PF f (conj HfN E)) as (f' & FA). destruct (GO _ _ FA) as (Hj & _ & O1 & O2 & E1 & E2 & AC & _ & R1). exists a, L, f'. auto 12.
Qed.
Lemma face_other f : 0 <= f < nf -> is_periodic dim (nthZ 0 (h_name h) f) = false -> nthZ [] (ps_cellid s') f = nthZ [] (h_cellid h) f.
Proof. intros Hf HP. apply (ch_face_other _ _ _ _ _ _ _ _ _ _ CH f); [rewrite len_name'; exact Hf|]. intros a Ha. rewrite dirs_axes in Ha. exact (not_periodic_label _ a HP Ha). Qed.
Lemma face_names f : 0 <= f < nf -> nthZ 0 (h_name h) f <> 10 /\ zlen (nthZ [] (ps_cellid s') f) = 2 /\ nthZ 0 (nthZ [] (ps_cellid s') f) 0 = cleft cn f /\ iscell cells (cleft cn f) /\
  (nthZ 0 (h_name h) f = 0 \/ is_periodic dim (nthZ 0 (h_name h) f) = true -> iscell cells (nthZ 0 (nthZ [] (ps_cellid s') f) 1)).
Proof.
  intros Hf. destruct (kinds f Hf) as ((Hc & _) & KD). destruct (is_periodic dim (nthZ 0 (h_name h) f)) eqn:HP.
  - destruct (face_partner f Hf HP) as (ax & L & f' & _ & _ & _ & ER & _ & ((Hc' & _) & _) & _). rewrite ER. split; [|split; [reflexivity|]; split; [reflexivity|]; split; [exact Hc | intros _; exact Hc']]. intros E. rewrite E in HP. unfold is_periodic, is_x, is_y, is_z in HP. destruct (dim =? 3); discriminate.
  - rewrite (face_other f Hf HP). destruct KD as [(b & E0 & _ & ER & _ & Hb)|(E0 & _ & ER & _ & OC)]; rewrite ER.
    + split; [lia|]. split; [reflexivity|]. split; [reflexivity|]. split; [exact Hc | intros _; exact Hb].
    + pose proof Hd as Hd'. destruct (pm_boundary _ _ _ _ _ PM _ _ OC) as [B|B]; [|rewrite E0 in HP; congruence]. rewrite E0. split; [lia|]. split; [reflexivity|]. split; [reflexivity|]. split; [exact Hc|]. intros [X|X]; [lia | discriminate].
Qed.
Lemma no_ten : ~ In 10 labels.
Proof. intros H. destruct (proj2 (pm_labels _ _ _ _ _ PM) 10 H) as [B|B]; [pose proof Hd; lia|]. unfold is_periodic, is_x, is_y, is_z in B. destruct (dim =? 3); discriminate. Qed.

(** ** the domain *)
Definition perD (nv : list nodevar) (di : list diamond) : domain :=
      {| dm_dim := dim;
         dm_vertex := nodes; dm_old := labels; dm_nodename := h_nodename h; dm_nodecell := nodecell; dm_nodehalo := h_nodehalo h; dm_nodeperiodic := pad_unique (ps_node s');
         dm_nodeghost := pad_rows (map (map entry_of) (ps_ghost s')); dm_haloghost := pad_rows (rk_hg K); dm_hginfo := pad_pts (rk_info K); dm_nodevar := nv; dm_nodeglob := h_loctoglob h;
         dm_cellnodes := ocells dim nodes cells; dm_center := map cg_center (ge_cells g); dm_volume := map cg_volume (ge_cells g); dm_cellnid := cellnid; dm_faceid := cn_faceid (ge_conn g);
         dm_cellfid := cn_cellfid (ge_conn g); dm_nf := ge_nf g; dm_cellhalo := h_cellhalo h; dm_loctoglob := rk_cell K;
         dm_periodicfid := map (fun c => if c =? 0 then -1 else c) (ps_fid s'); dm_periodicnid := pad_unique (ps_nid s'); dm_shift := ps_shift s';
         dm_facenodes := ge_facenodes g; dm_cellid := ps_cellid s'; dm_name := h_name h; dm_normal := map fg_normal (ge_faces g); dm_mesure := map fg_mesure (ge_faces g);
         dm_fcenter := map fg_center (ge_faces g); dm_opp := cn_opp (ge_conn g); dm_halofid := h_halofid h; dm_fghost := map gc_pt (h_ghost h); dm_diamond := di;
         dm_centerh := rk_center K; dm_hext := rk_ext K; dm_nhg := rk_nhg K |}.
Lemma len_center' : zlen (map cg_center (ge_cells g)) = zlen cells.
Proof. destruct SG as (_ & E & _). rewrite E, (bu_ecs _ _ _ _ _ _ _ _ _ _ _ P1), !zlen_map. reflexivity. Qed.
Lemma per_nodes nv di : wf_nodedata dim (dom_node (perD nv di)) nf 0.
Proof.
  pose proof (zlen_nonneg nodes) as NN. destruct (nc_len _ _ _ _ (bu_n _ _ _ _ _ _ _ _ _ _ _ P1)) as (N1 & N2). destruct node_ghosts as (G1 & G2). destruct HS as (_ & _ & _ & EN & _ & _ & EH & _). destruct (ch_inv _ _ _ _ _ _ _ _ _ _ CH) as [SZ _ IN IG]. pose proof (sz_shift _ _ _ SZ) as LS. pose proof len_center' as LC. constructor.
  - exact Hd.
  - cbn [dom_node perD nd_old nd_vertex nd_name nd_cellid nd_ghost nd_periodic nd_haloghost nd_haloid nd_shift nd_centerc dm_vertex dm_old dm_nodename dm_nodecell dm_nodehalo dm_nodeperiodic dm_nodeghost dm_haloghost dm_center dm_shift].
    rewrite zlen_pad_unique, IN, LS, LC, EN, EH, G1, HN. cbn [alone rk_hg]. unfold pad_rows at 1. rewrite zlen_map. rewrite !zlen_zeros_like by exact NN. repeat split; assumption.
  - intros i Hi. change (row_ok (zlen (map cg_center (ge_cells g))) (nthZ [] nodecell i)). rewrite LC. apply (node_row_of dim 1 cells nodes ones K g1 cn h1 nodecell cellnid P1 i Hi).
  - intros i Hi. apply G2. exact Hi.
  - intros i Hi HP. change (row_ok (zlen (map cg_center (ge_cells g))) (nthZ [] (pad_unique (ps_node s')) i)). rewrite LC. apply node_periodic_row; assumption.
  - intros i Hi H10. exfalso. change (nthZ 0 (h_nodename h) i = 10) in H10. rewrite EN in H10. apply no_ten. rewrite <- H10. apply nthZ_In. rewrite HN. exact Hi.
Qed.
Lemma per_faces nv di : wf_facedata dim (dom_face (perD nv di)).
Proof.
  destruct HS as ((LG & _ & LM & _) & _ & _ & _ & _ & EH & _). destruct (ch_inv _ _ _ _ _ _ _ _ _ _ CH) as [SZ _ _ _]. pose proof (sz_shift _ _ _ SZ) as LS. pose proof (sz_cellid _ _ _ SZ) as LCi. pose proof len_center' as LC. destruct SG as (_ & _ & S3 & _). rewrite S3 in LG, LM. rewrite LM in LCi. constructor.
  - exact Hd.
  - cbn [dom_face perD fd_cellid fd_nodes fd_ghost fd_name fd_normal fd_centerc fd_centerh fd_halofid fd_vertex fd_shift dm_cellid dm_facenodes dm_fghost dm_name dm_normal dm_halofid dm_shift dm_center].
    rewrite S3, EH, LC, LS, LCi, LM. rewrite !zlen_map. rewrite zlen_zeros_like by apply zlen_nonneg. rewrite len_faces', LG. auto 8.
  - intros f Hf. change (0 <= f < zlen (ps_cellid s')) in Hf. rewrite LCi in Hf. destruct (face_names f Hf) as (A1 & A2 & A3 & A4 & A5). destruct (face_nodes dim 1 cells nodes ones K VR g1 cn h1 nodecell cellnid P1 f Hf) as (B1 & _ & B2).
    cbv zeta. change (fd_name (dom_face (perD nv di))) with (h_name h). change (fd_cellid (dom_face (perD nv di))) with (ps_cellid s'). change (fd_nodes (dom_face (perD nv di))) with (ge_facenodes g). change (fd_halofid (dom_face (perD nv di))) with (h_halofid h).
    change (fd_centerc (dom_face (perD nv di))) with (map cg_center (ge_cells g)). change (fd_centerh (dom_face (perD nv di))) with (@nil pt). change (fd_vertex (dom_face (perD nv di))) with nodes. rewrite LC, S3, A3.
    split; [exact A2|]. split; [exact A4|]. split; [exact B1|]. split; [exact B2|]. split; [exact A5|]. intros E. contradiction.
Qed.
Lemma per_setup : update_periodic f32 dim (zlen cells) (zlen nodes) I (h_cellid h) (h_nodeghost h) (h_name h) labels =
  Ok {| pt_cellid := ps_cellid s'; pt_fid := map (fun c => if c =? 0 then -1 else c) (ps_fid s'); pt_nid := pad_unique (ps_nid s'); pt_shift := ps_shift s'; pt_node := pad_unique (ps_node s'); pt_ghost := ps_ghost s' |} ->
  exists nv di, setup f32 dim 1 cells nodes labels npart0 epart = Ok {| se_domains := [perD nv di]; se_comms := []; se_tc := [range (zlen cells)] |} /\ variables dim (dom_node (perD nv di)) = Ok nv /\ face_gradient_info dim (dom_face (perD nv di)) = Ok di.
Proof.
  intros EU. pose proof (variables_ok _ _ _ _ (per_nodes [] [])) as EV. pose proof (face_info_ok _ _ (per_faces [] [])) as EF. match type of EV with _ = Ok ?a => match type of EF with _ = Ok ?b => exists a, b end end. split; [|split; [exact EV | exact EF]].
  destruct SG as (_ & S2 & _). destruct HS as (_ & _ & _ & EN & _).
  assert (EO : map cg_nodes (ge_cells g) = ocells dim nodes cells) by (rewrite S2, (bu_ecs _ _ _ _ _ _ _ _ _ _ _ P1), map_map; reflexivity).
  eapply setup_alone; [exact HN | | | exact no_ten | | ].
  - unfold first_half. rewrite Hg. cbn [bind]. rewrite EO, (bu_nodes _ _ _ _ _ _ _ _ _ _ _ P1). cbn [bind]. rewrite Eh. cbn [bind]. rewrite zlen_ocells, EN, EU. cbn [bind]. reflexivity.
  - cbn [pr_h]. exact EN.
  - cbn [pr_p pt_ghost]. apply (iv_ghost _ _ _ _ _ (ch_inv _ _ _ _ _ _ _ _ _ _ CH)).
  - unfold second_half. cbv zeta. cbn [pr_g pr_h pr_p pr_nodecell pr_cellnid pt_cellid pt_fid pt_nid pt_shift pt_node pt_ghost]. rewrite EO.
    match type of EV with variables _ ?x = Ok ?y => match goal with |- context [variables dim ?z] => change (variables dim z) with (variables dim x); rewrite EV end end. cbn [bind].
    match type of EF with face_gradient_info _ ?x = Ok ?y => match goal with |- context [face_gradient_info dim ?z] => change (face_gradient_info dim z) with (face_gradient_info dim x); rewrite EF end end. cbn [bind]. reflexivity.
Qed.
Lemma per_twins nv di : twins f32 dim cells nodes labels (perD nv di) D1.
Proof.
  destruct HS as ((LG & _ & LM & _) & _ & _ & EN & ELG & EH & _). destruct (ch_inv _ _ _ _ _ _ _ _ _ _ CH) as [SZ _ _ _]. pose proof (sz_shift _ _ _ SZ) as LS. pose proof (sz_cellid _ _ _ SZ) as LCi. pose proof len_center' as LC. destruct SG as (S1 & S2 & S3 & S4 & S5 & S6). rewrite S3 in LG, LM. rewrite LM in LCi. constructor.
  - reflexivity.
  - cbn [perD assembled dm_center dm_volume dm_faceid dm_loctoglob dm_shift]. rewrite LS, LC, S1, S2. auto.
  - cbn [perD assembled dm_facenodes dm_normal dm_mesure dm_fcenter dm_cellid dm_name dm_halofid]. rewrite S3, S4, S5, S6, LCi, LM, EH, zlen_zeros_like by apply zlen_nonneg. auto 8.
  - cbn [perD assembled dm_vertex dm_old dm_nodename dm_nodeglob]. rewrite ELG, (hf_loctoglob _ _ _ _ _ _ _ _ HF1). auto.
  - cbn [perD assembled dm_centerh dm_hext dm_haloghost dm_hginfo dm_nhg]. auto 8.
  - intros f Hf. change (0 <= f < nf) in Hf. destruct (fset_Fs f Hf) as (EFf & _).
    assert (LO : forall f', 0 <= f' < nf -> left_of D1 f' = cleft cn f'). { intros f' Hf'. unfold left_of. cbn [assembled dm_cellid]. destruct (kinds f' Hf') as (_ & [(b & _ & _ & _ & E & _)|(_ & _ & _ & E & _)]); rewrite E; reflexivity. }
    destruct (kinds f Hf) as (_ & [(b & E0 & E0' & E1 & E1' & Hb)|(E0 & E0' & E1 & E1' & OC)]).
    + apply (TInner _ _ _ _ _ _ _ _ (cleft cn f) b); cbn [perD assembled dm_cellid dm_name]; try assumption. rewrite (face_other f Hf); [exact E1|]. rewrite E0. unfold is_periodic, is_x, is_y, is_z. destruct (dim =? 3); reflexivity.
    + destruct (pm_boundary _ _ _ _ _ PM _ _ OC) as [B|B].
      * apply (TPlain _ _ _ _ _ _ _ _ (cleft cn f)); cbn [perD assembled dm_cellid dm_name]; rewrite ?EFf; try assumption. rewrite (face_other f Hf); [exact E1|]. rewrite E0. pose proof Hd as Hd'. unfold is_periodic, is_x, is_y, is_z. revert B. generalize (flabel dim labels (Fs f)). intros l B. destruct (dim =? 3); lia.
      * rewrite <- E0 in B. destruct (face_partner f Hf B) as (ax & L & f' & Ha & PD & Hf' & ER & _ & OC' & FA). destruct (fset_Fs f' Hf') as (EFf' & _). rewrite E0 in B.
        apply (TPeriodic _ _ _ _ _ _ _ _ (cleft cn f) f'); cbn [perD dm_cellid dm_name]; rewrite ?EFf, ?EFf', ?(LO f' Hf'); try assumption. exists ax, L. auto.
Qed.
End Dom.

Lemma built f32 dim cells nodes labels npart0 epart : periodic_mesh dim cells nodes labels f32 -> valid_split dim 1 cells nodes npart0 epart ->
  exists D D1, setup f32 dim 1 cells nodes labels npart0 epart = Ok {| se_domains := [D]; se_comms := []; se_tc := [range (zlen cells)] |} /\ twins f32 dim cells nodes labels D D1 /\
    part_of dim cells nodes (ones nodes) epart 0 D1 /\ consistent dim D1 /\ wf_facedata dim (dom_face D) /\ wf_nodedata dim (dom_node D) (zlen (dm_facenodes D)) 0.
Proof.
  intros PM VS. destruct (twin_exists f32 dim cells nodes labels npart0 epart PM VS) as (g1 & cn & h1 & nodecell & cellnid & nv1 & di1 & P1 & PA & CD). cbv zeta in PA, CD.
  destruct (build_geometry_ok dim nodes labels cells (pm_mesh _ _ _ _ _ PM) (proj1 (pm_labels _ _ _ _ _ PM))) as (_ & g & Hg & _).
  destruct (sequential dim nodes labels cells (pm_mesh _ _ _ _ _ PM) (proj1 (pm_labels _ _ _ _ _ PM)) (pm_nonflat _ _ _ _ _ PM) g Hg [] []) as (h & Eh & _).
  destruct (tables f32 dim cells nodes labels npart0 epart PM VS g1 cn h1 nodecell cellnid nv1 di1 P1 PA g h Hg Eh) as (s' & EU & CH).
  destruct (per_setup f32 dim cells nodes labels npart0 epart PM VS g1 cn h1 nodecell cellnid nv1 di1 P1 PA g h Hg Eh s' CH EU) as (nv & di & ES & _).
  eexists _, _. split; [exact ES|]. split; [apply (per_twins f32 dim cells nodes labels npart0 epart PM VS g1 cn h1 nodecell cellnid nv1 di1 P1 PA g h Hg Eh s' CH)|]. split; [exact PA|]. split; [exact CD|].
  split; [apply (per_faces f32 dim cells nodes labels npart0 epart PM VS g1 cn h1 nodecell cellnid nv1 di1 P1 PA g h Hg Eh s' CH)|]. cbn [perD dm_facenodes].
  destruct (SG f32 dim cells nodes labels PM g1 cn h1 nodecell cellnid P1 g Hg) as (_ & _ & S3 & _). rewrite S3. apply (per_nodes f32 dim cells nodes labels npart0 epart PM VS g1 cn h1 nodecell cellnid nv1 di1 P1 PA g h Hg Eh s' CH).
Qed.
