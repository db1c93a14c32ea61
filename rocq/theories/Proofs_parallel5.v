(** * Proofs_parallel5: the domain of a rank is its part of the mesh. *)
From Coq Require Import Reals Lra Permutation Sorted.
From Verif Require Import Py PyLemmas Model_part Spec_part Properties_part Model_file Properties_file Model_label Proofs_label Model_conn Spec_conn Proofs_conn1 Proofs_conn2 Model_geom Spec_geom Proofs_geom1 Proofs_geom2 Proofs_geom3
  Model_halo Spec_halo Proofs_halo1 Proofs_halo3 Model_periodic Model_interp Spec_interp Model_fvm Model_bc Proofs_bc Model_linsys Model_comm Model_haloghost Spec_haloghost Proofs_haloghost
  Model_domain Spec_domain Proofs_domain1 Proofs_domain2 Proofs_domain3 Proofs_domain4 Model_parallel Spec_parallel Proofs_parallel1 Proofs_parallel2 Proofs_parallel3.
Open Scope Z_scope.

Section Part.
Context (dim SIZE : Z) (cells : list (list Z)) (nodes : list pt) (labels npart0 epart : list Z).
Hypothesis VM : valid_mesh dim cells nodes labels.
Hypothesis VS : valid_split dim SIZE cells nodes npart0 epart.
Context (r : Z).
Hypothesis Hr : 0 <= r < SIZE.
Context (L : local) (Ln : list Z).
Hypothesis RO : rank_ok dim SIZE cells nodes labels epart r L Ln.
Context (o : hgout) (D : domain).
Notation K := (rank_data L o).
Notation E := (lo_cells L).
Hypothesis FA : faithful dim SIZE E (lo_vertex L) (lo_label L) K D.
Hypothesis DH : dm_hext D = lo_ext L.
Hypothesis DC : dm_centerh D = lo_center L.
Notation gl := (gl Ln).
Notation gc := (gc L).
Notation gh := (gh L).
Notation up := (up Ln).
Let SH : same_halos L K := conj eq_refl eq_refl.
Let LV : zlen (lo_vertex L) = zlen Ln := len_vertex RO.
Lemma D_glob : dm_nodeglob D = Ln.
Proof. destruct (fa_nodes _ _ _ _ _ _ _ FA) as (_ & _ & _ & X). rewrite X, LV. symmetry. exact (ro_glob _ _ _ _ _ _ _ _ _ RO). Qed.
Lemma D_cell : dm_loctoglob D = lo_cell L.
Proof. destruct (fa_nodes _ _ _ _ _ _ _ FA) as (_ & _ & X & _). exact X. Qed.
Lemma gnode_gl k : 0 <= k < zlen Ln -> gnode D k = gl k.
Proof. intros Hk. unfold gnode. rewrite D_glob. apply nthZ_dflt. exact Hk. Qed.
Lemma gcell_gc c : gcell D c = gc c. Proof. unfold gcell. rewrite D_cell. reflexivity. Qed.
Lemma ghalo_gh h : ghalo D h = gh h. Proof. unfold ghalo. rewrite DH. reflexivity. Qed.
Lemma iscell_D c : iscell_of D c <-> iscell E c. Proof. unfold iscell_of, iscell. rewrite D_cell, (len_cells RO). tauto. Qed.
Lemma isnode_D k : isnode_of D k <-> 0 <= k < zlen Ln. Proof. unfold isnode_of. rewrite D_glob. tauto. Qed.
Lemma ishalo_D h : ishalo_of D h <-> ishalo (lo_ext L) h. Proof. unfold ishalo_of, ishalo. rewrite DH. tauto. Qed.
Lemma map_gnode l : (forall k, In k l -> 0 <= k < zlen Ln) -> map (gnode D) l = map gl l.
Proof. intros H. apply map_ext_in. intros k Hk. apply gnode_gl, H, Hk. Qed.
Lemma face_nodes_range f F c : has_facet dim E c F -> face_is D f F -> forall k, In k (nthZ [] (dm_facenodes D) f) -> 0 <= k < zlen Ln.
Proof. intros HF (_ & PF) k Hk. apply (facet_range RO c F k HF). apply (Permutation_in k PF). exact Hk. Qed.
Lemma gface_local f F : gface D f F -> exists c F0, has_facet dim E c F0 /\ face_is D f F0 /\ Permutation (map gl F0) F.
Proof.
  intros (Hf & PF). destruct (fa_faces _ _ _ _ _ _ _ FA f Hf) as (c & F0 & HF & HI). exists c, F0. split; [exact HF|]. split; [exact HI|]. rewrite map_gnode in PF by (apply (face_nodes_range f F0 c HF HI)).
  eapply Permutation_trans; [|exact PF]. apply Permutation_map, Permutation_sym. exact (proj2 HI).
Qed.
Lemma local_gface f F0 c : has_facet dim E c F0 -> face_is D f F0 -> gface D f (up F0).
Proof.
  intros HF HI. split; [exact (proj1 HI)|]. rewrite map_gnode by (apply (face_nodes_range f F0 c HF HI)). eapply Permutation_trans; [apply Permutation_map; exact (proj2 HI) | apply Permutation_sym, up_perm].
Qed.
Lemma sorted_up F F0 : StronglySorted Z.lt F -> Permutation (map gl F0) F -> NoDup F0 -> (forall k, In k F0 -> 0 <= k < zlen Ln) -> F = up F0.
Proof.
  intros SF PF ND HR. apply sorted_unique; [exact SF | | eapply Permutation_trans; [apply Permutation_sym; exact PF | apply Permutation_sym, up_perm]].
  apply np_sort_lt. apply (Permutation_NoDup (Permutation_sym PF)), sorted_lt_NoDup, SF.
Qed.
Lemma gface_up f F c : has_facet dim cells c F -> gface D f F -> exists c0 F0, has_facet dim E c0 F0 /\ face_is D f F0 /\ F = up F0.
Proof.
  intros HF HG. destruct (gface_local f F HG) as (c0 & F0 & H0 & HI & PF). exists c0, F0. split; [exact H0|]. split; [exact HI|]. apply sorted_up; [exact (proj1 (proj2 HF)) | exact PF | apply sorted_lt_NoDup; exact (proj1 (proj2 H0)) | intros k Hk; apply (facet_range RO c0 F0 k H0 Hk)].
Qed.
Lemma left_cell_D f c F : has_facet dim E c F -> face_is D f F -> has_facet dim E (left_of D f) F.
Proof.
  intros HF HI. unfold left_of. destruct (fa_kinds _ _ _ _ _ _ _ FA f c F HF HI) as [a b two sides notcut row name | a one notcut row name | a one iscut row name]; rewrite row.
  - change (has_facet dim E a F). apply sides. left; reflexivity.
  - exact (proj1 one).
  - exact (proj1 one).
Qed.
Lemma outward_up x F w : has_facet dim E x F -> outward_of (lo_vertex L) (cell E x) F w -> outward_of nodes (cell cells (gc x)) (map gl F) w.
Proof.
  intros HF (A & B). destruct (row_of_cell RO x (proj1 HF)) as (R1 & R2). assert (HR : forall k, In k F -> 0 <= k < zlen Ln) by (intros k Hk; apply (facet_range RO x F k HF Hk)). split.
  - unfold area_vector in *. rewrite (map_at_up RO F HR) in A. exact A.
  - intros y p Hy Ny Hp. rewrite <- R1 in Hy. apply in_map_iff in Hy as (y0 & <- & Hy). apply in_map_iff in Hp as (p0 & <- & Hp). rewrite <- !(at_up RO) by (try (apply R2; exact Hy); apply HR; exact Hp).
    apply B; [exact Hy | | exact Hp]. intros Hy0. apply Ny, in_map, Hy0.
Qed.
Lemma mirror_perm vertex F G v g : Permutation F G -> mirror vertex F v g -> mirror vertex G v g.
Proof.
  intros PF (A & B). split.
  - destruct (side_perm vertex F G PF) as (e & He & Ee). rewrite Ee in A. destruct He as [-> | ->]; lra.
  - intros x y Hx Hy. apply B; eapply Permutation_in; try (apply Permutation_sym; exact PF); assumption.
Qed.
Lemma share_up c x : iscell E c -> iscell E x -> (exists k, In k (cell E c) /\ In k (cell E x)) <-> share_node cells (gc c) (gc x).
Proof.
  intros Hc Hx. destruct (row_of_cell RO c Hc) as (R1 & R2). split.
  - intros (k & A & B). exists (gl k). split; [apply (gl_in RO k c Hc (R2 k A)); exact A | apply (gl_in RO k x Hx (R2 k A)); exact B].
  - intros (g & A & B). change (nodes_of cells (gc c)) with (cell cells (gc c)) in A. change (nodes_of cells (gc x)) with (cell cells (gc x)) in B. rewrite <- R1 in A. apply in_map_iff in A as (k & <- & A). exists k. split; [exact A | apply (gl_in RO k x Hx (R2 k A)); exact B].
Qed.

Lemma part_ok : part_of dim cells nodes labels epart r D.
Proof.
  destruct (fa_nodes _ _ _ _ _ _ _ FA) as (N1 & N2 & N3 & N4). destruct (fa_sizes _ _ _ _ _ _ _ FA) as (S1 & S2 & S3 & S4 & S5 & S6).
  assert (LB : zlen (lo_label L) = zlen Ln) by (rewrite (ro_label _ _ _ _ _ _ _ _ _ RO); apply zlen_map).
  constructor.
  - rewrite D_cell. exact (ro_cell _ _ _ _ _ _ _ _ _ RO).
  - rewrite D_cell, D_glob, N1, N2, DH, <- (len_cells RO), LV, LB. split; [exact S1|]. split; [exact S2|]. split; [exact S3|]. split; [exact S4|]. split; [exact S5|]. split; [exact S6|]. split; reflexivity.
  - intros c Hc. apply iscell_D in Hc. rewrite gcell_gc. destruct (row_of_cell RO c Hc) as (R1 & R2). destruct (fa_cells _ _ _ _ _ _ _ FA c Hc) as (PC & VP). destruct (fa_cell_geometry _ _ _ _ _ _ _ FA c Hc) as (G1 & G2).
    split; [|split; [|split; [|exact VP]]].
    + rewrite map_gnode; [|intros k Hk; apply R2; apply (Permutation_in k PC); exact Hk]. rewrite <- R1. apply Permutation_map. exact PC.
    + rewrite G1. unfold cell_centre. rewrite (map_at_up RO (cell E c) R2), R1. reflexivity.
    + rewrite G2. unfold cell_measure. rewrite (map_at_up RO (cell E c) R2), R1. reflexivity.
  - rewrite D_glob. split; [exact (ro_nodup _ _ _ _ _ _ _ _ _ RO) | exact (ro_in _ _ _ _ _ _ _ _ _ RO)].
  - intros k Hk. apply isnode_D in Hk. rewrite gnode_gl by exact Hk. rewrite N1, N2. split; [apply (at_up RO k Hk) | apply (label_up RO k Hk)].
  - split.
    + intros c Hc. apply iscell_D in Hc. destruct (row_of_cell RO c Hc) as (_ & R2). destruct (fa_cells _ _ _ _ _ _ _ FA c Hc) as (PC & _). apply Forall_forall. intros k Hk. apply isnode_D, R2. apply (Permutation_in k PC). exact Hk.
    + intros f Hf. destruct (fa_faces _ _ _ _ _ _ _ FA f Hf) as (c & F & HF & HI). apply Forall_forall. intros k Hk. apply isnode_D. exact (face_nodes_range f F c HF HI k Hk).
  - intros f Hf. destruct (fa_faces _ _ _ _ _ _ _ FA f Hf) as (c & F & HF & HI). exists (gc c), (up F). split; [apply (facet_up RO); exact HF|]. split; [apply (gc_ok RO); exact (proj1 HF) | apply (local_gface f F c HF HI)].
  - intros c F HF Ho. destruct (facet_down VM Hr RO c F HF Ho) as (c0 & F0 & Ec & H0 & EF). destruct (fa_facets _ _ _ _ _ _ _ FA c0 F0 H0) as (f & HI & HU). exists f. split; [rewrite EF; apply (local_gface f F0 c0 H0 HI)|].
    intros f' HG. destruct (gface_up f' F c HF HG) as (c1 & F1 & H1 & HI1 & EF1). apply HU. rewrite EF in EF1. rewrite (up_inj RO F0 F1 c0 c1 H0 H1 EF1). exact HI1.
  - intros c f F Hc HG. apply iscell_D in Hc. rewrite gcell_gc. destruct (gface_local f F HG) as (c0 & F0 & H0 & HI & PF). rewrite (fa_rows _ _ _ _ _ _ _ FA c f F0 Hc HI). split; intros X k Hk.
    + apply (Permutation_in k (Permutation_sym PF)) in Hk. apply in_map_iff in Hk as (k0 & <- & Hk). apply (gl_in RO k0 c Hc (facet_range RO c0 F0 k0 H0 Hk)). apply X, Hk.
    + apply (gl_in RO k c Hc (facet_range RO c0 F0 k H0 Hk)). apply X. apply (Permutation_in _ PF), in_map, Hk.
  - intros f g F HF HG. destruct (gface_up f F g HF HG) as (c0 & F0 & H0 & HI & EF). rewrite EF in *.
    destruct (fa_kinds _ _ _ _ _ _ _ FA f c0 F0 H0 HI) as [a b two sides notcut row name | a one notcut row name | a one iscut row name].
    + pose proof (proj2 (sides a) (or_introl eq_refl)) as Ha. pose proof (proj2 (sides b) (or_intror eq_refl)) as Hb.
      apply (Within _ _ _ _ _ _ _ _ a b); [apply iscell_D; exact (proj1 Ha) | apply iscell_D; exact (proj1 Hb) | exact two | | exact row | exact name]. intros c. rewrite !gcell_gc. split.
      * intros Hc. destruct (facet_other VM VS Hr RO K eq_refl eq_refl c0 F0 c H0 Hc) as [(c' & HF' & E1) | (h & HC & _)]; [|exfalso; exact (notcut h HC)]. apply sides in HF' as [-> | ->]; [left | right]; symmetry; exact E1.
      * intros [-> | ->]; apply (facet_up RO); assumption.
    + apply (AtBoundary _ _ _ _ _ _ _ _ a); [apply iscell_D; exact (proj1 (proj1 one)) | rewrite gcell_gc; apply (only_up VM VS Hr RO K eq_refl eq_refl a F0 one notcut) | exact row | | ].
      * rewrite name. apply (label_of_facet RO F0). intros k Hk. apply (facet_range RO c0 F0 k H0 Hk).
      * rewrite name. rewrite (label_of_facet RO F0) by (intros k Hk; apply (facet_range RO c0 F0 k H0 Hk)). apply (vm_boundary _ _ _ _ VM (gc a)). apply (only_up VM VS Hr RO K eq_refl eq_refl a F0 one notcut).
    + destruct (proj1 (cut_facet VS Hr RO K eq_refl eq_refl c0 F0 _ H0) iscut) as (Hh & HG'). pose proof (halo_row RO _ Hh) as (_ & _ & _ & Ho & _).
      pose proof (facet_up RO a F0 (proj1 one)) as Ha. apply (BetweenRanks _ _ _ _ _ _ _ _ a); [apply iscell_D; exact (proj1 (proj1 one)) | apply ishalo_D; exact Hh | rewrite ghalo_gh; exact Ho | | exact row | exact name].
      intros c. rewrite gcell_gc, ghalo_gh. split; [|intros [-> | ->]; assumption]. intros Hc.
      destruct (mesh_conforming dim cells nodes (vm_mesh _ _ _ _ VM) (vm_proper _ _ _ _ VM) _ _ _ _ Ha HG' Hc) as [E1 | [E1 | E1]]; [|right; symmetry; exact E1 | left; symmetry; exact E1].
      exfalso. apply Ho. rewrite <- E1. apply (gc_ok RO). exact (proj1 (proj1 one)).
  - intros f F HG. destruct (gface_local f F HG) as (c0 & F0 & H0 & HI & PF). destruct (fa_face_geometry _ _ _ _ _ _ _ FA f F0 HI) as (G1 & G2 & G3). rewrite gcell_gc. pose proof (left_cell_D f c0 F0 H0 HI) as HL. split; [|split; [exact G2|]].
    + apply (outward_of_perm nodes _ (map gl F0) F _ PF). apply (outward_up _ F0 _ HL G1).
    + rewrite G3. rewrite (map_at_up RO F0) by (intros k Hk; apply (facet_range RO c0 F0 k H0 Hk)). apply barycentre_perm, Permutation_map. exact PF.
  - intros f F HG Hn. destruct (gface_local f F HG) as (c0 & F0 & H0 & HI & PF). pose proof (fa_face_ghosts _ _ _ _ _ _ _ FA f (proj1 HI) Hn) as M. apply (mirror_perm nodes (map gl F0) F _ _ PF). apply (mirror_perm _ _ F0 _ _ (proj2 HI)) in M. destruct M as (M1 & M2).
    assert (HR : forall k, In k F0 -> 0 <= k < zlen Ln) by (intros k Hk; apply (facet_range RO c0 F0 k H0 Hk)). split.
    + rewrite <- M1. unfold left_of. unfold side. rewrite (map_at_up RO F0 HR). reflexivity.
    + intros x y Hx Hy. apply in_map_iff in Hx as (x0 & <- & Hx). apply in_map_iff in Hy as (y0 & <- & Hy). rewrite <- !(at_up RO) by (apply HR; assumption). apply M2; assumption.
  - split; [|split].
    + rewrite DH. rewrite (map_ext (ghalo D) gh) by (intros h; apply ghalo_gh). apply (halo_NoDup RO).
    + intros c. split.
      * intros (h & Hh & Ec). apply ishalo_D in Hh. rewrite ghalo_gh in Ec. destruct (halo_row RO h Hh) as (_ & _ & A & B & C). rewrite Ec in *. auto.
      * intros (A & B & C). destruct (halo_onto RO c A B C) as (h & Hh & Ec). exists h. split; [apply ishalo_D; exact Hh | rewrite ghalo_gh; exact Ec].
    + intros h Hh. apply ishalo_D in Hh. rewrite DC, (ro_center _ _ _ _ _ _ _ _ _ RO), ghalo_gh. rewrite (nthZ_map _ []) by exact Hh. destruct (halo_row RO h Hh) as (Er & _). rewrite Er. reflexivity.
  - intros k Hk c. apply isnode_D in Hk. rewrite (fa_node_cells _ _ _ _ _ _ _ FA k ltac:(lia) c). rewrite iscell_D, gcell_gc, gnode_gl by exact Hk. split; intros (A & B); (split; [exact A|]); apply (gl_in RO k c A Hk); exact B.
  - intros k Hk. apply isnode_D in Hk. rewrite gnode_gl by exact Hk. destruct (fa_node_labels _ _ _ _ _ _ _ FA k ltac:(lia)) as (A & B). split.
    + rewrite A. apply (cut_local dim SIZE cells nodes labels npart0 epart VM VS r Hr L Ln RO K k SH Hk).
    + intros H. rewrite (B H). apply (label_up RO k Hk).
  - intros k Hk h. apply isnode_D in Hk. rewrite gnode_gl by exact Hk. rewrite (fa_node_halos _ _ _ _ _ _ _ FA k ltac:(lia) h). rewrite ishalo_D, ghalo_gh. change (rk_ext K) with (lo_ext L). split; intros (A & B & C); (split; [exact A|]); (split; [exact B|]); pose proof (halo_several VS Hr RO K eq_refl h B) as HS;
      rewrite (node_number RO K eq_refl k HS) in *; destruct (halo_row RO h B) as (_ & X & _); rewrite X in *; exact C.
  - intros c Hc x. apply iscell_D in Hc. rewrite (fa_cell_cells _ _ _ _ _ _ _ FA c Hc x), iscell_D, !gcell_gc. split; intros (A & B & C); (split; [exact A|]); (split; [exact B|]); apply (share_up c x Hc A); exact C.
  - intros c Hc. apply iscell_D in Hc. destruct (fa_cell_halos _ _ _ _ _ _ _ FA c Hc) as (ND & HI). split; [exact ND|]. intros h. rewrite HI, ishalo_D, ghalo_gh, gcell_gc. change (rk_ext K) with (lo_ext L). destruct (row_of_cell RO c Hc) as (R1 & R2). split.
    + intros (k & A & B & C & G). pose proof (R2 k A) as Hk. split; [exact C|]. exists (gl k). split; [rewrite <- R1; apply in_map; exact A|]. split.
      * apply (cut_local dim SIZE cells nodes labels npart0 epart VM VS r Hr L Ln RO K k SH Hk). apply (proj1 (fa_node_labels _ _ _ _ _ _ _ FA k ltac:(lia))). exact B.
      * pose proof (halo_several VS Hr RO K eq_refl h C) as HS. rewrite (node_number RO K eq_refl k HS) in G. destruct (halo_row RO h C) as (_ & X & _). rewrite X in G. exact G.
    + intros (C & g & A & B & G). rewrite <- R1 in A. apply in_map_iff in A as (k & <- & A). pose proof (R2 k A) as Hk. exists k. split; [exact A|]. split.
      * apply (proj1 (fa_node_labels _ _ _ _ _ _ _ FA k ltac:(lia))). apply (cut_local dim SIZE cells nodes labels npart0 epart VM VS r Hr L Ln RO K k SH Hk). exact B.
      * split; [exact C|]. pose proof (halo_several VS Hr RO K eq_refl h C) as HS. rewrite (node_number RO K eq_refl k HS). destruct (halo_row RO h C) as (_ & X & _). rewrite X. exact G.
  - intros k Hk. apply isnode_D in Hk. exact (fa_node_ghosts _ _ _ _ _ _ _ FA k ltac:(lia)).
  - destruct (fa_once _ _ _ _ _ _ _ FA) as (A & B). split; [intros k Hk; apply isnode_D in Hk; apply A; lia | intros c Hc; apply B; apply iscell_D; exact Hc].
Qed.
End Part.
