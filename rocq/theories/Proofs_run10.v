(** * Proofs_run10: node values and cell slopes of the ranks. *)
From Coq Require Import Reals Lra Permutation Sorted.
From Verif Require Import Py PyLemmas Model_part Spec_part Model_label Model_conn Spec_conn Proofs_conn1 Proofs_conn2 Model_geom Spec_geom Proofs_geom1 Proofs_geom2 Proofs_geom3
  Model_halo Spec_halo Model_interp Spec_interp Spec_lsq Proofs_lsq Properties_lsq Model_fvm Spec_fvm Model_bc Spec_bc Spec_bc3 Proofs_label Proofs_bc Proofs_bc2 Proofs_bc3 Properties_bc3 Model_domain Spec_domain Proofs_domain1 Proofs_domain4
  Model_comm Model_parallel Spec_parallel Proofs_parallel1 Proofs_parallel6 Properties_parallel Model_run Spec_run Proofs_run1 Proofs_run2 Proofs_run3 Proofs_run4 Proofs_run5 Proofs_run6 Spec_run2 Model_run2 Proofs_run7 Proofs_run8 Proofs_run9.
Open Scope Z_scope.

Lemma known_ok {A} (d : A) (l : list (option A)) (P : Z -> A -> Prop) : (forall i, 0 <= i < zlen l -> exists x, nthZ None l i = Some x /\ P i x) ->
  exists l', known l = Ok l' /\ zlen l' = zlen l /\ forall i, 0 <= i < zlen l -> P i (nthZ d l' i).
Proof.
  intros H. exists (map (fun o => match o with Some x => x | None => d end) l). split; [|split; [apply zlen_map|]].
  - unfold known. apply mapM_ok. intros o Ho. destruct (In_nthZ None _ _ Ho) as (i & Hi & <-). destruct (H i Hi) as (x & -> & _). reflexivity.
  - intros i Hi. rewrite (nthZ_map _ None) by exact Hi. destruct (H i Hi) as (x & -> & Px). exact Px.
Qed.

Section All10.
Context (dim SIZE : Z) (cells : list (list Z)) (nodes : list pt) (labels epart : list Z) (Ds : list domain).
Hypothesis VM : valid_mesh dim cells nodes labels.
Hypothesis PL : dim = 2 -> planar nodes.
Hypothesis RP : represents dim SIZE cells nodes labels epart Ds.
Hypothesis SC : star_connected dim cells.
Hypothesis OW : forall c, iscell cells c -> 0 <= owner epart c < SIZE.
Notation Dr := (domain_of Ds).
Hypothesis CS : forall r, 0 <= r < SIZE -> consistent dim (Dr r).
Context (bc : list (loc * bctype)) (vs : list (loc * bcval)).
Hypothesis SP : spanned dim cells nodes.
Notation PAr := (rp_part _ _ _ _ _ _ _ RP).
Notation WFm := (vm_mesh _ _ _ _ VM).
Notation sees := (sees dim SIZE cells nodes labels Ds bc vs).
Notation aroundc := (around_cell dim cells nodes labels bc vs).
Notation aroundn := (around_node dim cells nodes labels bc vs).

Lemma around_node_points X g : map fst (aroundn X g) = node_points dim cells nodes g.
Proof. unfold around_node, node_points. rewrite map_app, !map_map. reflexivity. Qed.
Lemma around_cell_points X c : map fst (aroundc X c) = cell_points dim cells nodes c.
Proof. unfold around_cell, cell_points. rewrite map_app, map_map, map_flat_map. f_equal. apply flat_map_ext. intros k. rewrite map_map. reflexivity. Qed.

(** the neighbours of a cell *)
Lemma own_neighbours r c : 0 <= r < SIZE -> iscell_of (Dr r) c -> Permutation (map (gcell (Dr r)) (counted (nthZ [] (dm_cellnid (Dr r)) c))) (filter (fun d => owner epart d =? r) (neighbours cells (gcell (Dr r) c))).
Proof.
  intros Hr Hc. pose proof (PAr r Hr) as PA. pose proof (pa_cell_cells _ _ _ _ _ _ _ PA c Hc) as HC. apply NoDup_Permutation.
  - apply NoDup_map_on; [|apply (proj2 (pa_once _ _ _ _ _ _ _ PA) c Hc)]. intros a b Ha Hb E. apply HC in Ha as (Ha & _). apply HC in Hb as (Hb & _). exact (gcell_inj dim cells nodes labels epart r (Dr r) PA a b Ha Hb E).
  - apply NoDup_filter. unfold neighbours. apply NoDup_filter, NoDup_range.
  - intros d. rewrite in_map_iff, filter_In, in_neighbours. split.
    + intros (a & <- & Ha). apply HC in Ha as (Ha & N & S). destruct (gcell_owned dim cells nodes labels epart r (Dr r) PA a Ha) as (A & B). split; [split; [exact A|]; split; [|exact S] | rewrite B; apply Z.eqb_refl]. intros E. apply N. exact (gcell_inj dim cells nodes labels epart r (Dr r) PA a c Ha Hc E).
    + intros ((Hd & N & S) & Ho). destruct (gcell_onto dim cells nodes labels epart r (Dr r) PA d Hd ltac:(lia)) as (a & Ha & <-). exists a. split; [reflexivity|]. apply HC. split; [exact Ha|]. split; [|exact S]. intros ->. apply N. reflexivity.
Qed.
Lemma halo_neighbours r c : 0 <= r < SIZE -> iscell_of (Dr r) c -> Permutation (map (ghalo (Dr r)) (counted (nthZ [] (dm_cellhalo (Dr r)) c))) (filter (fun d => negb (owner epart d =? r)) (neighbours cells (gcell (Dr r) c))).
Proof.
  intros Hr Hc. pose proof (PAr r Hr) as PA. destruct (pa_cell_halos _ _ _ _ _ _ _ PA c Hc) as (NDc & HC). destruct (pa_halos _ _ _ _ _ _ _ PA) as (NDh & HH & _). destruct (gcell_owned dim cells nodes labels epart r (Dr r) PA c Hc) as (GC & GO). apply NoDup_Permutation.
  - apply NoDup_map_on; [|exact NDc]. intros a b Ha Hb E. apply HC in Ha as (Ha & _). apply HC in Hb as (Hb & _). unfold ishalo_of in *.
    apply (nthZ_inj_NoDup (-1) (map (ghalo (Dr r)) (range (zlen (dm_hext (Dr r)))))); [exact NDh | rewrite zlen_map, zlen_range; lia | rewrite zlen_map, zlen_range; lia|]. rewrite !(nthZ_map _ 0) by (rewrite zlen_range; lia). rewrite !nthZ_range by lia. exact E.
  - apply NoDup_filter. unfold neighbours. apply NoDup_filter, NoDup_range.
  - intros d. rewrite in_map_iff, filter_In, in_neighbours. split.
    + intros (h & <- & Hh). apply HC in Hh as (Hh & g & Hg & _ & Hg'). destruct (proj1 (HH (ghalo (Dr r) h)) ltac:(exists h; auto)) as (A & B & _). split; [split; [exact A|]; split|].
      * intros E. apply B. rewrite E. exact GO.
      * exists g. split; assumption.
      * destruct (Z.eqb_spec (owner epart (ghalo (Dr r) h)) r); [contradiction | reflexivity].
    + intros ((Hd & N & g & Hg & Hg') & Ho). assert (NE : owner epart d <> r) by (destruct (Z.eqb_spec (owner epart d) r); [discriminate Ho | assumption]).
      destruct (proj2 (HH d)) as (h & Hh & Eh). { split; [exact Hd|]. split; [exact NE|]. exists (gcell (Dr r) c). split; [exact GC|]. split; [exact GO|]. exists g. split; assumption. }
      exists h. split; [exact Eh|]. apply HC. split; [exact Hh|]. exists g. split; [exact Hg|]. rewrite Eh. split; [|exact Hg']. pose proof (around_cut dim cells epart g (gcell (Dr r) c) d (SC g _ _ GC Hd Hg Hg') ltac:(rewrite GO; congruence)) as X. rewrite GO in X. exact X.
Qed.

Lemma cell_data r X W c : 0 <= r < SIZE -> sees r X W -> iscell_of (Dr r) c ->
  Permutation (map (fun q => level1 dim (fst q, value_at W (snd q))) (cell_stencil dim (dom_cell (Dr r)) c)) (aroundc X (gcell (Dr r) c)).
Proof.
  intros Hr SE Hc. pose proof (PAr r Hr) as PA. pose proof (wm_dim _ _ _ WFm) as Hd. unfold cell_stencil. cbn [dom_cell cd_nodes cd_centerc cd_cellnid cd_old cd_shift cd_periodic cd_centerh cd_halonid cd_ghost cd_haloghost].
  destruct (pa_cell _ _ _ _ _ _ _ PA c Hc) as (PC & _). destruct (gcell_owned dim cells nodes labels epart r (Dr r) PA c Hc) as (GC & _). destruct (wm_rows _ _ _ WFm (cell cells (gcell (Dr r) c)) ltac:(apply nthZ_In; exact GC)) as (LC & _).
  assert (EL : length (nthZ [] (dm_cellnodes (Dr r)) c) = Z.to_nat (dim + 1)). { pose proof (Permutation_length PC) as X0. rewrite map_length in X0. unfold zlen in LC. lia. }
  rewrite <- EL, firstn_all. pose proof (proj1 (pa_numbers _ _ _ _ _ _ _ PA) c Hc) as NN. rewrite Forall_forall in NN. set (ns := nthZ [] (dm_cellnodes (Dr r)) c) in *.
  replace (if dim =? 2 then flat_map _ ns else []) with (@nil (pt * source)). 2:{ destruct (dim =? 2); [|reflexivity]. symmetry. apply flat_map_none. intros k Hk. pose proof (label_small dim SIZE cells nodes labels epart Ds VM RP r k Hr (NN k Hk)). cbv zeta. replace (_ || _) with false by (unfold is_x, is_y; lia). reflexivity. }
  rewrite app_nil_l, !map_app, !map_map, map_flat_map. cbn [fst snd value_at]. unfold around_cell. rewrite app_assoc. apply Permutation_app.
  - eapply Permutation_trans; [|apply Permutation_map; apply (filter_split (fun d => owner epart d =? r))]. rewrite map_app. apply Permutation_app.
    + eapply Permutation_trans; [|apply Permutation_map; apply (own_neighbours r c Hr Hc)]. rewrite map_map. apply Permutation_eq_of. apply map_ext_in. intros a Ha. apply (pa_cell_cells _ _ _ _ _ _ _ PA c Hc) in Ha as (Ha & _). exact (own_sample dim SIZE cells nodes labels epart Ds RP bc vs r X W a Hr SE Ha).
    + eapply Permutation_trans; [|apply Permutation_map; apply (halo_neighbours r c Hr Hc)]. rewrite map_map. apply Permutation_eq_of. apply map_ext_in. intros h Hh. apply (proj2 (pa_cell_halos _ _ _ _ _ _ _ PA c Hc)) in Hh as (Hh & _). exact (halo_sample dim SIZE cells nodes labels epart Ds RP bc vs r X W h Hr SE Hh).
  - eapply Permutation_trans; [|apply Permutation_flat_map; exact PC]. rewrite flat_map_concat_map, (flat_map_concat_map _ (map (gnode (Dr r)) ns)), map_map, <- !flat_map_concat_map. apply Permutation_flat_map_on. intros k Hk.
    pose proof (label_small dim SIZE cells nodes labels epart Ds VM RP r k Hr (NN k Hk)) as LS. replace (nthZ 0 (dm_old (Dr r)) k <=? 2 * dim) with true by lia. rewrite map_app, !map_map. exact (node_boundary dim SIZE cells nodes labels epart Ds VM PL RP SC OW bc vs r X W k Hr SE (NN k Hk)).
Qed.

(** the value at a node *)
Lemma node_value_ok r X W k : 0 <= r < SIZE -> sees r X W -> isnode_of (Dr r) k -> exists wn v, centertovertex dim (dom_node (Dr r)) (dm_nodevar (Dr r)) W = Ok wn /\ nthZ None wn k = Some v /\ nodal_value dim cells nodes labels bc vs X (gnode (Dr r) k) v.
Proof.
  intros Hr SE Hk. destruct (cs_nodes _ _ (CS r Hr)) as (WN & EV). destruct (C24_least_squares dim (dom_node (Dr r)) _ _ W WN (se_wf _ _ _ _ _ _ _ _ _ _ _ SE)) as (nvs & wn & E1 & E2 & H). rewrite EV in E1. injection E1 as <-.
  pose proof (node_data dim SIZE cells nodes labels epart Ds VM PL RP SC OW bc vs r X W k Hr SE Hk) as PD. destruct (node_cell dim SIZE cells nodes labels epart Ds RP r k Hr Hk) as (c & Hc & _ & Hg).
  assert (EVX : zlen (dm_vertex (Dr r)) = zlen (dm_nodeglob (Dr r))) by (destruct (pa_sizes _ _ _ _ _ _ _ (PAr r Hr)) as (_ & _ & _ & _ & _ & _ & S7 & _); exact S7).
  destruct (H k) as (c0 & g & BF & EN); [cbn [dom_node nd_vertex]; rewrite EVX; exact Hk | |].
  - apply spans_level. apply (spans_incl dim (node_points dim cells nodes (gnode (Dr r) k))); [|apply (proj1 SP c _ Hc Hg)]. rewrite <- (around_node_points X). intros p Hp. apply in_map_iff in Hp as (q & <- & Hq). apply (Permutation_in _ (Permutation_sym PD)) in Hq. apply in_map_iff in Hq as ((p', s) & <- & Hq). cbn [fst snd level1]. apply in_map, in_map_iff. exists (p', s). split; [reflexivity | exact Hq].
  - exists wn, (affine c0 g (at_node nodes (gnode (Dr r) k))). split; [exact E2|]. cbn [dom_node nd_vertex] in EN. rewrite (proj1 (pa_node _ _ _ _ _ _ _ (PAr r Hr) k Hk)) in EN. split; [exact EN|]. exists c0, g. split; [|reflexivity]. apply (best_fit_perm _ _ _ _ _ PD). apply best_fit_level in BF. rewrite map_map in BF. exact BF.
Qed.
(** the slope of a cell *)
Lemma cell_slope_ok r X W c : 0 <= r < SIZE -> sees r X W -> iscell_of (Dr r) c -> exists gs s, cell_gradient dim (dom_cell (Dr r)) W = Ok gs /\ zlen gs = zlen (dm_center (Dr r)) /\ nthZ None gs c = Some s /\ cell_slope dim cells nodes labels bc vs X (gcell (Dr r) c) s.
Proof.
  intros Hr SE Hc. destruct (cs_cells _ _ (CS r Hr)) as (WC & PZ). destruct (C25_least_squares dim (dom_cell (Dr r)) _ _ _ W WC (se_wf _ _ _ _ _ _ _ _ _ _ _ SE)) as (gs & E & EL & H); [right; exact PZ|].
  pose proof (cell_data r X W c Hr SE Hc) as PD. destruct (gcell_owned dim cells nodes labels epart r (Dr r) (PAr r Hr) c Hc) as (GC & _). destruct (pa_cell _ _ _ _ _ _ _ (PAr r Hr) c Hc) as (_ & EC & _).
  destruct (H c) as (s & BS & ES); [cbn [dom_cell cd_centerc]; destruct (pa_sizes _ _ _ _ _ _ _ (PAr r Hr)) as (_ & S2 & _); unfold iscell_of in Hc; lia | |].
  - cbn [dom_cell cd_centerc]. apply spans_from_level. rewrite EC. apply (spans_from_incl dim _ (cell_points dim cells nodes (gcell (Dr r) c))); [|apply (proj2 SP _ GC)]. rewrite <- (around_cell_points X). intros p Hp. apply in_map_iff in Hp as (q & <- & Hq). apply (Permutation_in _ (Permutation_sym PD)) in Hq. apply in_map_iff in Hq as ((p', s) & <- & Hq). cbn [fst snd level1]. apply in_map, in_map_iff. exists (p', s). split; [reflexivity | exact Hq].
  - exists gs, s. split; [exact E|]. split; [exact EL|]. split; [exact ES|]. unfold cell_slope. cbn [dom_cell cd_centerc] in BS. rewrite EC, (se_cell _ _ _ _ _ _ _ _ _ _ _ SE c Hc) in BS. apply (best_slope_perm _ _ _ _ _ _ PD). apply best_slope_level in BS. rewrite map_map in BS. exact BS.
Qed.
End All10.
