(** * Proofs_parallel3: the domains of all the ranks. *)
From Coq Require Import Reals Lra Permutation Sorted.
From Verif Require Import Py PyLemmas Model_part Spec_part Properties_part Model_file Properties_file Model_label Proofs_label Model_conn Spec_conn Proofs_conn1 Proofs_conn2 Model_geom Spec_geom Proofs_geom1 Proofs_geom2 Proofs_geom3
  Model_halo Spec_halo Proofs_halo1 Proofs_halo3 Model_periodic Model_interp Spec_interp Model_fvm Model_bc Proofs_bc Model_linsys Model_comm Model_haloghost Spec_haloghost Proofs_haloghost
  Model_domain Spec_domain Proofs_domain1 Proofs_domain2 Proofs_domain3 Proofs_domain4 Model_parallel Spec_parallel Proofs_parallel1 Proofs_parallel2.
Open Scope Z_scope.

Definition no_out : hgout := {| ho_ghost := []; ho_info := []; ho_size := 0 |}.
Definition same_halos (L : local) (K : rankdata) : Prop := rk_ext K = lo_ext L /\ rk_node K = lo_node L.
(** what the first half of the constructor leaves *)
Record started (f32 : R -> R) (dim SIZE : Z) (L : local) (P : prepared) : Prop := {
  st_begin : begin_rank f32 dim SIZE L = Ok P;
  st_ghost : pt_ghost (pr_p P) = h_nodeghost (pr_h P);
  st_parts : forall K, same_halos L K -> Proofs_domain2.parts dim SIZE (lo_cells L) (lo_vertex L) (lo_label L) K (pr_g P) (ge_conn (pr_g P)) (pr_h P) (pr_nodecell P) (pr_cellnid P) }.

Lemma first_ok f32 dim size nodeid vertex namen K g cn h nodecell cellnid : valid_rank dim size nodeid vertex namen K -> Proofs_domain2.parts dim size nodeid vertex namen K g cn h nodecell cellnid ->
  exists p, first_half f32 dim size nodeid vertex namen (rk_ext K) (rk_node K) = Ok {| pr_g := g; pr_nodecell := nodecell; pr_cellnid := cellnid; pr_h := h; pr_p := p |} /\ pt_ghost p = h_nodeghost h.
Proof.
  intros VR P. assert (EO : map cg_nodes (ge_cells g) = ocells dim vertex nodeid) by (rewrite (bu_ecs _ _ _ _ _ _ _ _ _ _ _ P), map_map; reflexivity).
  unfold first_half. rewrite (bu_g _ _ _ _ _ _ _ _ _ _ _ P). cbn [bind]. rewrite EO. rewrite (bu_nodes _ _ _ _ _ _ _ _ _ _ _ P). cbn [bind]. rewrite (bu_h _ _ _ _ _ _ _ _ _ _ _ P). cbn [bind].
  rewrite zlen_ocells. rewrite (periodic_ok f32 dim size nodeid vertex namen K VR g cn h nodecell cellnid P). cbn [bind]. eexists. split; reflexivity.
Qed.
Lemma parts_same dim size nodeid vertex namen K K' g cn h nodecell cellnid : rk_ext K = rk_ext K' -> rk_node K = rk_node K' ->
  Proofs_domain2.parts dim size nodeid vertex namen K g cn h nodecell cellnid -> Proofs_domain2.parts dim size nodeid vertex namen K' g cn h nodecell cellnid.
Proof.
  destruct K as [e c nn ce hg inf nh], K' as [e' c' nn' ce' hg' inf' nh']. cbn [rk_ext rk_node]. intros -> -> [A1 A2 A3 A4 A5 A6 A7 A8 A9 A10 A11]. constructor; try assumption.
  destruct A9 as [B1 B2 B3 B4 B5 B6 B7]. constructor; assumption.
Qed.

Section Rank.
Context (f32 : R -> R) (dim SIZE : Z) (cells : list (list Z)) (nodes : list pt) (labels npart0 epart : list Z).
Hypothesis VM : valid_mesh dim cells nodes labels.
Hypothesis VS : valid_split dim SIZE cells nodes npart0 epart.
Context (r : Z).
Hypothesis Hr : 0 <= r < SIZE.
Context (L : local) (Ln : list Z).
Hypothesis RO : rank_ok dim SIZE cells nodes labels epart r L Ln.
Notation E := (lo_cells L).
Notation gl := (gl Ln).
Notation gc := (gc L).
Notation gh := (gh L).
Notation up := (up Ln).
(** nothing received *)
Definition quiet : rankdata := {| rk_ext := lo_ext L; rk_center := lo_center L; rk_node := lo_node L; rk_cell := lo_cell L; rk_hg := zeros_like [] (zlen (lo_vertex L));
  rk_info := zeros_like [] (zlen (lo_vertex L)); rk_nhg := 0 |}.
Lemma quiet_valid : valid_rank dim SIZE (lo_cells L) (lo_vertex L) (lo_label L) quiet.
Proof.
  pose proof (zlen_nonneg (lo_vertex L)) as N. apply (rank_valid VM VS Hr RO quiet); try reflexivity; cbn [quiet rk_info rk_hg rk_nhg].
  - split; [apply zlen_zeros_like; exact N|]. intros k Hk. rewrite !nthZ_zeros_like by exact Hk. reflexivity.
  - split; [apply zlen_zeros_like; exact N|]. split; [lia|]. intros k e Hk. rewrite nthZ_zeros_like by exact Hk. intros [].
Qed.
Lemma start_ok : exists P, started f32 dim SIZE L P.
Proof.
  destruct (parts_exist dim SIZE (lo_cells L) (lo_vertex L) (lo_label L) quiet quiet_valid) as (g & cn & h & nodecell & cellnid & PP).
  destruct (first_ok f32 _ _ _ _ _ _ _ _ _ _ _ quiet_valid PP) as (p & E1 & E2). eexists. constructor; [exact E1 | exact E2|]. cbn [pr_g pr_h pr_nodecell pr_cellnid]. intros K (K1 & K2).
  rewrite (bu_ecn _ _ _ _ _ _ _ _ _ _ _ PP). apply (parts_same _ _ _ _ _ quiet K); [rewrite K1; reflexivity | rewrite K2; reflexivity | exact PP].
Qed.

Context (P : prepared).
Hypothesis ST : started f32 dim SIZE L P.
Let PQ : Proofs_domain2.parts dim SIZE (lo_cells L) (lo_vertex L) (lo_label L) quiet (pr_g P) (ge_conn (pr_g P)) (pr_h P) (pr_nodecell P) (pr_cellnid P) := st_parts _ _ _ _ _ ST quiet (conj eq_refl eq_refl).
Let HF := bu_hf _ _ _ _ _ _ _ _ _ _ _ PQ.
Notation H := (brings L P).
Lemma h_nodes_eq : hk_node H = Ln.
Proof.
  cbn [brings hk_node]. rewrite (hf_loctoglob _ _ _ _ _ _ _ _ HF). cbn [quiet rk_node]. rewrite (len_vertex RO). symmetry. exact (ro_glob _ _ _ _ _ _ _ _ _ RO).
Qed.
Lemma h_ghost_len : zlen (hk_ghost H) = zlen Ln.
Proof. cbn [brings hk_ghost]. rewrite (st_ghost _ _ _ _ _ ST). rewrite (proj1 (proj2 (hf_ghost _ _ _ _ _ _ _ _ HF))). apply (len_vertex RO). Qed.
Lemma h_nodehalo_len : zlen (hk_nodehalo H) = zlen Ln.
Proof. cbn [brings hk_nodehalo]. destruct (hf_len _ _ _ _ _ _ _ _ HF) as (_ & _ & _ & X & _). rewrite X. apply (len_vertex RO). Qed.
Lemma h_nodename_len : zlen (h_nodename (pr_h P)) = zlen Ln.
Proof. destruct (hf_len _ _ _ _ _ _ _ _ HF) as (_ & _ & X & _). rewrite X. apply (len_vertex RO). Qed.
(** a local facet cut by a halo cell is a facet between this rank and another *)
Lemma cut_local K k : same_halos L K -> 0 <= k < zlen Ln -> (exists c F h, has_facet dim E c F /\ In k F /\ cut_by K F h) <-> cut_at dim cells epart r (gl k).
Proof.
  intros (K1 & K2) Hk. split.
  - intros (c & F & h & HFa & Hin & HC). apply (cut_facet VS Hr RO K K1 K2 c F h HFa) in HC as (Hh & HG).
    exists (gc c), (gh h), (up F). split; [apply (facet_up RO); exact HFa|]. split; [exact HG|]. split; [apply (gc_ok RO); exact (proj1 HFa)|].
    split; [apply (halo_row RO); exact Hh | apply up_in; exact Hin].
  - intros (a & b & G & Ha & Hb & Oa & Ob & Hin). destruct (facet_down VM Hr RO a G Ha Oa) as (c & F & Ec & HFa & EG).
    rewrite EG in Hb. destruct (facet_other VM VS Hr RO K K1 K2 c F b HFa Hb) as [(c' & HF' & E1) | (h & HC & _ & _)].
    + exfalso. apply Ob. rewrite <- E1. apply (gc_ok RO). exact (proj1 HF').
    + exists c, F, h. split; [exact HFa|]. split; [|exact HC]. rewrite EG in Hin. apply in_up in Hin as (k' & E1 & Hk'). apply (gl_inj RO) in E1; [subst; exact Hk' | apply (facet_range RO c F k' HFa Hk') | exact Hk].
Qed.
Lemma h_name10 k : 0 <= k < zlen Ln -> nthZ 0 (h_nodename (pr_h P)) k = 10 <-> cut_at dim cells epart r (gl k).
Proof.
  intros Hk. rewrite <- (cut_local quiet k (conj eq_refl eq_refl) Hk). rewrite <- (onhalo_iff dim SIZE (lo_cells L) (lo_vertex L) (lo_label L) quiet quiet_valid _ _ _ _ _ PQ k).
  apply (name10 dim SIZE (lo_cells L) (lo_vertex L) (lo_label L) quiet quiet_valid _ _ _ _ _ PQ). rewrite (len_vertex RO). exact Hk.
Qed.
Lemma h_halonodes k : In k (hk_nodes H) <-> 0 <= k < zlen Ln /\ cut_at dim cells epart r (gl k).
Proof. cbn [brings hk_nodes]. rewrite In_where, h_nodename_len. split; intros (A & B); (split; [exact A|]); apply (h_name10 k A); exact B. Qed.
Lemma h_ghosts k e : 0 <= k < zlen Ln -> In e (nthZ [] (hk_ghost H) k) -> 0 <= ng_face e < zlen (ge_facenodes (pr_g P)) /\ iscell E (ng_cell e) /\ In (gl k) (cell cells (gc (ng_cell e))) /\
  ng_fcenter e = nthZ vzero (map fg_center (ge_faces (pr_g P))) (ng_face e).
Proof.
  intros Hk He. cbn [brings hk_ghost] in He. rewrite (st_ghost _ _ _ _ _ ST) in He. assert (Hk' : 0 <= k < zlen (lo_vertex L)) by (rewrite (len_vertex RO); exact Hk).
  destruct (ghost_entries dim SIZE (lo_cells L) (lo_vertex L) (lo_label L) quiet quiet_valid _ _ _ _ _ PQ k (entry_of e) Hk') as (f & Hf & Hin & _ & Ee).
  { rewrite (nthZ_map (map entry_of) []) by (rewrite (proj1 (proj2 (hf_ghost _ _ _ _ _ _ _ _ HF))); exact Hk'). apply in_map. exact He. }
  unfold entry_of in Ee. injection Ee as E1 E2 E3 E4. rewrite E4, E2. split; [exact Hf|]. destruct (fcase dim SIZE (lo_cells L) (lo_vertex L) (lo_label L) quiet quiet_valid _ _ _ _ _ PQ f Hf) as ((Hc & S & HL & HI) & _).
  split; [exact Hc|]. split.
  - apply (gl_in RO); [exact Hc | exact Hk|]. apply HI. apply (Permutation_in k (bu_pf _ _ _ _ _ _ _ _ _ _ _ PQ f Hf)). exact Hin.
  - destruct (hf_ghost _ _ _ _ _ _ _ _ HF) as (_ & _ & _ & _ & _ & Hno). destruct (Hno k Hk') as (_ & HE). destruct (HE e He) as (_ & _ & _ & X & _). rewrite X, E4. symmetry. apply (nthZ_map fg_center fg0).
    rewrite (faces_len dim SIZE (lo_cells L) (lo_vertex L) (lo_label L) quiet _ _ _ _ _ PQ). exact Hf.
Qed.
Lemma h_nodehalos k : 0 <= k < zlen Ln -> exists W pad, nthZ [] (hk_nodehalo H) k = W ++ pad ++ [zlen W] /\
  forall h, In h W <-> cut_at dim cells epart r (gl k) /\ ishalo (lo_ext L) h /\ In (gl k) (cell cells (gh h)).
Proof.
  intros Hk. assert (Hk' : 0 <= k < zlen (lo_vertex L)) by (rewrite (len_vertex RO); exact Hk).
  destruct (hf_nodehalo _ _ _ _ _ _ _ _ HF k Hk') as (W & pad & E1 & _ & HW). exists W, pad. split; [exact E1|]. intros h. rewrite HW. rewrite (onhalo_iff dim SIZE (lo_cells L) (lo_vertex L) (lo_label L) quiet quiet_valid _ _ _ _ _ PQ k).
  rewrite (cut_local quiet k (conj eq_refl eq_refl) Hk). cbn [quiet rk_ext]. split; intros (A & B & C); (split; [exact A|]); (split; [exact B|]).
  - rewrite (node_number RO quiet eq_refl k) in C; [|apply (halo_several VS Hr RO quiet eq_refl h B)]. destruct (halo_row RO h B) as (_ & X & _). rewrite X in C. exact C.
  - rewrite (node_number RO quiet eq_refl k); [|apply (halo_several VS Hr RO quiet eq_refl h B)]. destruct (halo_row RO h B) as (_ & X & _). rewrite X. exact C.
Qed.
End Rank.
