(** * Proofs_run8: the data a rank sees around a node or a cell are the data of the mesh. *)
From Coq Require Import Reals Lra Permutation Sorted.
From Verif Require Import Py PyLemmas Model_part Spec_part Model_label Model_conn Spec_conn Proofs_conn1 Proofs_conn2 Model_geom Spec_geom Proofs_geom1 Proofs_geom2 Proofs_geom3
  Model_halo Spec_halo Model_interp Spec_interp Spec_lsq Proofs_lsq Model_bc Spec_bc Spec_bc3 Model_domain Spec_domain Proofs_domain1 Proofs_domain4 Spec_parallel Proofs_parallel1 Proofs_parallel6 Properties_parallel
  Spec_run Proofs_run1 Proofs_run3 Proofs_run6 Spec_run2 Proofs_run7.
Open Scope Z_scope.

Section Rank8.
Context (dim : Z) (cells : list (list Z)) (nodes : list pt) (labels epart : list Z) (r : Z) (D : domain).
Hypothesis VM : valid_mesh dim cells nodes labels.
Hypothesis PL : dim = 2 -> planar nodes.
Hypothesis PA : part_of dim cells nodes labels epart r D.
Notation WF := (vm_mesh _ _ _ _ VM).
Notation gc := (gcell D).
Notation own := (fun c => owner epart c =? r).

Lemma own_touching k : isnode_of D k -> Permutation (map gc (counted (nthZ [] (dm_nodecell D) k))) (filter own (touching cells (gnode D k))).
Proof.
  intros Hk. pose proof (pa_node_cells _ _ _ _ _ _ _ PA k Hk) as HC. apply NoDup_Permutation.
  - apply NoDup_map_on; [|apply (proj1 (pa_once _ _ _ _ _ _ _ PA) k Hk)]. intros a b Ha Hb E. apply HC in Ha as (Ha & _). apply HC in Hb as (Hb & _). exact (gcell_inj dim cells nodes labels epart r D PA a b Ha Hb E).
  - apply NoDup_filter. unfold touching. apply NoDup_filter, NoDup_range.
  - intros c. rewrite in_map_iff, filter_In, in_touching. split.
    + intros (a & <- & Ha). apply HC in Ha as (Ha & Hg). destruct (gcell_owned dim cells nodes labels epart r D PA a Ha) as (A & B). split; [split; [exact A | exact Hg] | rewrite B; apply Z.eqb_refl].
    + intros ((Hc & Hg) & Ho). destruct (gcell_onto dim cells nodes labels epart r D PA c Hc ltac:(lia)) as (a & Ha & <-). exists a. split; [reflexivity|]. apply HC. split; assumption.
Qed.
Lemma fset_inj f f' : isface D f -> isface D f' -> fset D f = fset D f' -> f = f'.
Proof.
  intros Hf Hf' E. destruct (fset_facet dim cells nodes labels epart r D PA f Hf) as (c & HF & HO & HG). destruct (fset_facet dim cells nodes labels epart r D PA f' Hf') as (c' & HF' & HO' & HG').
  destruct (pa_facets _ _ _ _ _ _ _ PA c (fset D f) HF HO) as (f0 & _ & U). rewrite (U f HG). symmetry. apply U. rewrite E. exact HG'.
Qed.
Lemma in_fset f k : isface D f -> isnode_of D k -> In (gnode D k) (fset D f) <-> In k (nthZ [] (dm_facenodes D) f).
Proof.
  intros Hf Hk. unfold fset. rewrite np_sort_In, in_map_iff. split.
  - intros (k' & E & Hk'). replace k with k'; [exact Hk'|]. apply (nthZ_inj_NoDup (-1) (dm_nodeglob D)); [exact (proj1 (pa_nodes _ _ _ _ _ _ _ PA)) | | exact Hk | exact E]. pose proof (proj2 (pa_numbers _ _ _ _ _ _ _ PA) f Hf) as X. rewrite Forall_forall in X. exact (X k' Hk').
  - intros H. exists k. split; [reflexivity | exact H].
Qed.
Lemma boundary_face f : isface D f -> 1 <= nthZ 0 (dm_name D) f <= 2 * dim -> iscell_of D (left_of D f) /\ only_cell dim cells (gc (left_of D f)) (fset D f) /\ nthZ 0 (dm_name D) f = face_label (priority dim) (map (nthZ 0 labels) (fset D f)).
Proof.
  intros Hf Hn. destruct (fset_facet dim cells nodes labels epart r D PA f Hf) as (c & HF & HO & HG). pose proof (wm_dim _ _ _ WF) as Hd.
  destruct (pa_kinds _ _ _ _ _ _ _ PA f c _ HF HG) as [a b Ca Cb two sides row name | a Ca one row name label | a Ca Hh other sides row name]; [lia | | lia].
  assert (E : left_of D f = a) by (unfold left_of; rewrite row; reflexivity). rewrite E. auto.
Qed.
Lemma ghost_numbers k : isnode_of D k -> forall f, In f (map g_last (ghosts_of D k)) <-> isface D f /\ 1 <= nthZ 0 (dm_name D) f <= 2 * dim /\ In k (nthZ [] (dm_facenodes D) f).
Proof. intros Hk f. destruct (pa_node_ghosts _ _ _ _ _ _ _ PA k Hk) as (E & _). rewrite E, filter_In, !andb_true_iff, in_range, mem_In, !Z.leb_le. unfold isface. tauto. Qed.
(** a ghost of the rank *)
Definition ghost_facts (k : Z) (e : gentry) : Prop :=
  let f := g_last e in isface D f /\ 1 <= nthZ 0 (dm_name D) f <= 2 * dim /\ In (gnode D k) (fset D f) /\ iscell_of D (g_cell e) /\ g_cell e = left_of D f /\ only_cell dim cells (gc (g_cell e)) (fset D f) /\
  level dim (g_pt e) = reflection nodes (fset D f) (centre dim cells nodes (gc (g_cell e))) /\ g_name e = face_label (priority dim) (map (nthZ 0 labels) (fset D f)) /\ nthZ vzero (dm_fcenter D) f = facet_centre nodes (fset D f).
Lemma own_ghost k e : isnode_of D k -> In e (ghosts_of D k) -> ghost_facts k e.
Proof.
  intros Hk He. unfold ghost_facts. cbv zeta. destruct (proj1 (ghost_numbers k Hk (g_last e)) (in_map g_last _ _ He)) as (Hf & Hn & Hkf). destruct (pa_node_ghosts _ _ _ _ _ _ _ PA k Hk) as (_ & HE). destruct (HE e He) as (E1 & E2 & E3).
  destruct (boundary_face _ Hf Hn) as (C & O & L). destruct (fset_facet dim cells nodes labels epart r D PA _ Hf) as (c & HF & HO & HG).
  split; [exact Hf|]. split; [exact Hn|]. split; [apply (in_fset _ k Hf Hk); exact Hkf|]. rewrite E2. split; [exact C|]. split; [reflexivity|]. split; [exact O|]. split; [|split].
  - rewrite E1. apply (mirror_reflection dim cells nodes labels VM PL _ _ _ _ (proj1 O)); [intros E; apply centre_level; exact E|]. pose proof (pa_ghosts _ _ _ _ _ _ _ PA _ _ HG Hn) as M. rewrite (proj1 (proj2 (pa_cell _ _ _ _ _ _ _ PA _ C))) in M. exact M.
  - rewrite E3. exact L.
  - apply (pa_geometry _ _ _ _ _ _ _ PA _ _ HG).
Qed.
Definition key (e : gentry) : Z * list Z := (gc (g_cell e), fset D (g_last e)).
Lemma ghosts_NoDup k : isnode_of D k -> NoDup (ghosts_of D k) /\ forall e e', In e (ghosts_of D k) -> In e' (ghosts_of D k) -> g_last e = g_last e' -> e = e'.
Proof.
  intros Hk. destruct (pa_node_ghosts _ _ _ _ _ _ _ PA k Hk) as (E & _). assert (ND : NoDup (map g_last (ghosts_of D k))) by (rewrite E; apply NoDup_filter, NoDup_range). revert ND. generalize (ghosts_of D k) as l. induction l as [|x l IH]; intros ND; [split; [apply NoDup_nil | intros ? ? []]|].
  cbn [map] in ND. inversion ND as [|? ? Nx ND']; subst. destruct (IH ND') as (A & B). split; [apply NoDup_cons; [intros X; apply Nx; apply in_map; exact X | exact A]|].
  intros e e' [<-|He] [<-|He'] EE; [reflexivity | exfalso; apply Nx; rewrite EE; apply in_map; exact He' | exfalso; apply Nx; rewrite <- EE; apply in_map; exact He | apply B; assumption].
Qed.
Lemma own_boundary k : isnode_of D k -> Permutation (map key (ghosts_of D k)) (filter (fun p => owner epart (fst p) =? r) (boundary_at cells (gnode D k))).
Proof.
  intros Hk. destruct (ghosts_NoDup k Hk) as (ND & INJ). apply NoDup_Permutation.
  - apply NoDup_map_on; [|exact ND]. intros e e' He He' E. apply INJ; [exact He | exact He'|]. injection E as _ E. destruct (own_ghost k e Hk He) as (F1 & _). destruct (own_ghost k e' Hk He') as (F2 & _). exact (fset_inj _ _ F1 F2 E).
  - apply NoDup_filter. unfold boundary_at. apply NoDup_filter. exact (boundary_NoDup dim cells nodes labels VM).
  - intros (c, F). rewrite in_map_iff, filter_In, (in_boundary_at dim cells nodes labels VM). cbn [fst]. split.
    + intros (e & E & He). destruct (own_ghost k e Hk He) as (F1 & _ & F2 & F3 & _ & F4 & _). unfold key in E. injection E as <- <-. split; [split; assumption|]. rewrite (proj2 (gcell_owned dim cells nodes labels epart r D PA _ F3)). apply Z.eqb_refl.
    + intros ((HO & Hg) & Ho). pose proof (proj1 HO) as HF. destruct (pa_facets _ _ _ _ _ _ _ PA c F HF ltac:(lia)) as (f & HG & _). pose proof (fset_eq dim cells D f F c HF HG) as EF. pose proof (proj1 HG) as Hf.
      assert (Hn : 1 <= nthZ 0 (dm_name D) f <= 2 * dim /\ gc (left_of D f) = c).
      { destruct (pa_kinds _ _ _ _ _ _ _ PA f c F HF HG) as [a b Ca Cb two sides row name | a Ca one row name label | a Ca Hh other sides row name].
        - exfalso. apply two. apply (gcell_inj dim cells nodes labels epart r D PA a b Ca Cb). rewrite (proj2 HO (gc a)), (proj2 HO (gc b)) by (apply sides; auto). reflexivity.
        - split; [exact label|]. unfold left_of. rewrite row. symmetry. apply (proj2 one). exact HF.
        - exfalso. apply other. rewrite (proj2 HO (ghalo D (nthZ 0 (dm_halofid D) f))) by (apply sides; auto). lia. }
      destruct Hn as (Hn & EC). assert (HI : In f (map g_last (ghosts_of D k))). { apply (ghost_numbers k Hk). split; [exact Hf|]. split; [exact Hn|]. apply (in_fset f k Hf Hk). rewrite EF. exact Hg. }
      apply in_map_iff in HI as (e & Ee & He). exists e. split; [|exact He]. unfold key. destruct (own_ghost k e Hk He) as (_ & _ & _ & _ & E2 & _). rewrite E2, Ee, EC, EF. reflexivity.
Qed.
End Rank8.

Section All8.
Context (dim SIZE : Z) (cells : list (list Z)) (nodes : list pt) (labels epart : list Z) (Ds : list domain).
Hypothesis VM : valid_mesh dim cells nodes labels.
Hypothesis PL : dim = 2 -> planar nodes.
Hypothesis RP : represents dim SIZE cells nodes labels epart Ds.
Hypothesis SC : star_connected dim cells.
Hypothesis OW : forall c, iscell cells c -> 0 <= owner epart c < SIZE.
Notation Dr := (domain_of Ds).
Notation PAr := (rp_part _ _ _ _ _ _ _ RP).

Lemma node_cell r k : 0 <= r < SIZE -> isnode_of (Dr r) k -> exists c, iscell cells c /\ owner epart c = r /\ In (gnode (Dr r) k) (cell cells c).
Proof. intros Hr Hk. apply (proj2 (pa_nodes _ _ _ _ _ _ _ (PAr r Hr))). apply nthZ_In. exact Hk. Qed.
(** a node with cells of two ranks is a cut node of both *)
Lemma shared_cut r k c : 0 <= r < SIZE -> isnode_of (Dr r) k -> iscell cells c -> In (gnode (Dr r) k) (cell cells c) -> owner epart c <> r -> nthZ 0 (dm_nodename (Dr r)) k = 10.
Proof.
  intros Hr Hk Hc Hg Ho. destruct (node_cell r k Hr Hk) as (c' & Hc' & Oc' & Hg'). apply (pa_node_labels _ _ _ _ _ _ _ (PAr r Hr) k Hk). pose proof (around_cut dim cells epart _ c' c (SC _ _ _ Hc' Hc Hg' Hg) ltac:(congruence)) as X. rewrite Oc' in X. exact X.
Qed.
Lemma halo_touching r k : 0 <= r < SIZE -> isnode_of (Dr r) k -> Permutation (map (ghalo (Dr r)) (counted (nthZ [] (dm_nodehalo (Dr r)) k))) (filter (fun c => negb (owner epart c =? r)) (touching cells (gnode (Dr r) k))).
Proof.
  intros Hr Hk. pose proof (PAr r Hr) as PA. pose proof (pa_node_halos _ _ _ _ _ _ _ PA k Hk) as HC. destruct (pa_halos _ _ _ _ _ _ _ PA) as (NDh & HH & _). apply NoDup_Permutation.
  - apply NoDup_map_on; [|apply (proj1 (pa_once _ _ _ _ _ _ _ PA) k Hk)]. intros a b Ha Hb E. apply HC in Ha as (_ & Ha & _). apply HC in Hb as (_ & Hb & _). unfold ishalo_of in *.
    apply (nthZ_inj_NoDup (-1) (map (ghalo (Dr r)) (range (zlen (dm_hext (Dr r)))))); [exact NDh | rewrite zlen_map, zlen_range; lia | rewrite zlen_map, zlen_range; lia|]. rewrite !(nthZ_map _ 0) by (rewrite zlen_range; lia). rewrite !nthZ_range by lia. exact E.
  - apply NoDup_filter. unfold touching. apply NoDup_filter, NoDup_range.
  - intros c. rewrite in_map_iff, filter_In, in_touching. split.
    + intros (h & <- & Hh). apply HC in Hh as (_ & Hh & Hg). destruct (proj1 (HH (ghalo (Dr r) h)) ltac:(exists h; auto)) as (A & B & _). split; [split; assumption|]. destruct (Z.eqb_spec (owner epart (ghalo (Dr r) h)) r); [contradiction | reflexivity].
    + intros ((Hc & Hg) & Ho). assert (NE : owner epart c <> r) by (destruct (Z.eqb_spec (owner epart c) r); [discriminate Ho | assumption]). destruct (node_cell r k Hr Hk) as (c' & Hc' & Oc' & Hg').
      destruct (proj2 (HH c)) as (h & Hh & Eh). { split; [exact Hc|]. split; [exact NE|]. exists c'. split; [exact Hc'|]. split; [exact Oc'|]. exists (gnode (Dr r) k). split; assumption. }
      exists h. split; [exact Eh|]. apply HC. split; [exact (shared_cut r k c Hr Hk Hc Hg NE)|]. split; [exact Hh | rewrite Eh; exact Hg].
Qed.
(** the ghosts of another rank at a shared node *)
Lemma ghosts_at s g k : 0 <= s < SIZE -> isnode_of (Dr s) k -> gnode (Dr s) k = g -> nthZ 0 (dm_nodename (Dr s)) k = 10 -> ghosts_at_node (Dr s) g = ghosts_of (Dr s) k.
Proof.
  intros Hs Hk Eg E10. unfold ghosts_at_node. rewrite (flat_map_one _ _ k).
  - rewrite Eg, E10, Z.eqb_refl. reflexivity.
  - exact Hk.
  - intros j Hj N. destruct (Z.eqb_spec (gnode (Dr s) j) g) as [E|]; [|reflexivity]. exfalso. apply N. apply (nthZ_inj_NoDup (-1) (dm_nodeglob (Dr s))); [exact (proj1 (pa_nodes _ _ _ _ _ _ _ (PAr s Hs))) | exact Hj | exact Hk | unfold gnode in *; congruence].
Qed.
Lemma no_ghosts_at s g : (forall k, isnode_of (Dr s) k -> gnode (Dr s) k <> g) -> ghosts_at_node (Dr s) g = [].
Proof. intros H. apply flat_map_none. intros k Hk. apply in_range in Hk. destruct (Z.eqb_spec (gnode (Dr s) k) g) as [E|]; [exfalso; exact (H k Hk E) | reflexivity]. Qed.
Lemma bucket s r k : 0 <= s < SIZE -> 0 <= r < SIZE -> s <> r -> isnode_of (Dr r) k ->
  Permutation (map (key (Dr s)) (ghosts_at_node (Dr s) (gnode (Dr r) k))) (filter (fun p => owner epart (fst p) =? s) (boundary_at cells (gnode (Dr r) k))).
Proof.
  intros Hs Hr N Hk. set (g := gnode (Dr r) k). destruct (node_cell r k Hr Hk) as (c0 & Hc0 & Oc0 & Hg0). fold g in Hg0.
  destruct (in_dec Z.eq_dec g (dm_nodeglob (Dr s))) as [HI|NI].
  - destruct (In_nthZ (-1) _ _ HI) as (k' & Hk' & Ek'). change (gnode (Dr s) k' = g) in Ek'. assert (E10 : nthZ 0 (dm_nodename (Dr s)) k' = 10) by (apply (shared_cut s k' c0 Hs Hk' Hc0); [rewrite Ek'; exact Hg0 | rewrite Oc0; congruence]).
    rewrite (ghosts_at s g k' Hs Hk' Ek' E10). rewrite <- Ek'. apply (own_boundary dim cells nodes labels epart s (Dr s) VM PL (PAr s Hs) k' Hk').
  - rewrite no_ghosts_at by (intros k' Hk' E; apply NI; rewrite <- E; apply nthZ_In; exact Hk'). cbn [map]. replace (filter _ _) with (@nil (Z * list Z)); [apply Permutation_refl|]. symmetry.
    destruct (filter (fun p => owner epart (fst p) =? s) (boundary_at cells g)) as [|(c, F) l] eqn:EF; [reflexivity|]. exfalso. assert (X : In (c, F) (filter (fun p => owner epart (fst p) =? s) (boundary_at cells g))) by (rewrite EF; left; reflexivity).
    apply filter_In in X as (X & Y). cbn [fst] in Y. apply (in_boundary_at dim cells nodes labels VM) in X as (X1 & X2). apply NI. apply (proj2 (pa_nodes _ _ _ _ _ _ _ (PAr s Hs))). exists c. destruct X1 as (X1 & _). split; [exact (proj1 X1)|]. split; [lia | apply X1; exact X2].
Qed.
Definition key2 (se : Z * gentry) : Z * list Z := key (Dr (fst se)) (snd se).
Lemma halo_boundary r k : 0 <= r < SIZE -> isnode_of (Dr r) k -> Permutation (map key2 (others_at_node SIZE Ds r (gnode (Dr r) k))) (filter (fun p => negb (owner epart (fst p) =? r)) (boundary_at cells (gnode (Dr r) k))).
Proof.
  intros Hr Hk. eapply Permutation_trans; [|apply Permutation_sym, (buckets (fun p => owner epart (fst p)) _ SIZE r)].
  - unfold others_at_node. rewrite map_flat_map. apply Permutation_flat_map_on. intros s Hs. apply in_range in Hs. destruct (Z.eqb_spec s r) as [|N]; [apply Permutation_refl|]. rewrite map_map. exact (bucket s r k Hs Hr N Hk).
  - unfold boundary_at. apply NoDup_filter. exact (boundary_NoDup dim cells nodes labels VM).
  - intros (c, F) H. apply (in_boundary_at dim cells nodes labels VM) in H as ((H & _) & _). cbn [fst]. apply OW. exact (proj1 H).
Qed.
(** the entries received, with what they stand for *)
Lemma other_facts r k se : 0 <= r < SIZE -> isnode_of (Dr r) k -> In se (others_at_node SIZE Ds r (gnode (Dr r) k)) ->
  0 <= fst se < SIZE /\ fst se <> r /\ exists k', isnode_of (Dr (fst se)) k' /\ gnode (Dr (fst se)) k' = gnode (Dr r) k /\ ghost_facts dim cells nodes labels (Dr (fst se)) k' (snd se).
Proof.
  intros Hr Hk H. unfold others_at_node in H. apply in_flat_map in H as (s & Hs & H). apply in_range in Hs. destruct (Z.eqb_spec s r) as [|N]; [destruct H|]. apply in_map_iff in H as (e & <- & H). cbn [fst snd]. split; [exact Hs|]. split; [exact N|].
  unfold ghosts_at_node in H. apply in_flat_map in H as (k' & Hk' & H). apply in_range in Hk'. exists k'. split; [exact Hk'|]. destruct (Z.eqb_spec (gnode (Dr s) k') (gnode (Dr r) k)) as [E|]; [|destruct H]. split; [exact E|]. destruct (nthZ 0 (dm_nodename (Dr s)) k' =? 10); [|destruct H]. cbn [andb] in H.
  exact (own_ghost dim cells nodes labels epart s (Dr s) VM PL (PAr s Hs) k' e Hk' H).
Qed.
End All8.
