(** * Proofs_parallel4: the exchange between the ranks and the second half of the constructor. *)
From Coq Require Import Reals Lra Permutation Sorted.
From Verif Require Import Py PyLemmas Model_part Spec_part Properties_part Model_file Properties_file Model_label Proofs_label Model_conn Spec_conn Proofs_conn1 Proofs_conn2 Model_geom Spec_geom Proofs_geom1 Proofs_geom2 Proofs_geom3
  Model_halo Spec_halo Proofs_halo1 Proofs_halo3 Model_periodic Model_interp Spec_interp Model_fvm Model_bc Proofs_bc Model_linsys Model_comm Model_haloghost Spec_haloghost Proofs_haloghost
  Model_domain Spec_domain Proofs_domain1 Proofs_domain2 Proofs_domain3 Proofs_domain4 Model_parallel Spec_parallel Proofs_parallel1 Proofs_parallel2 Proofs_parallel3.
Open Scope Z_scope.

Section All.
Context (f32 : R -> R) (dim SIZE : Z) (cells : list (list Z)) (nodes : list pt) (labels npart0 epart : list Z).
Hypothesis VM : valid_mesh dim cells nodes labels.
Hypothesis VS : valid_split dim SIZE cells nodes npart0 epart.
Context (Ls : list local) (N : Z -> list Z).
Hypothesis LL : zlen Ls = SIZE.
Notation Lf := (nthZ no_local Ls).
Hypothesis RO : forall r, 0 <= r < SIZE -> rank_ok dim SIZE cells nodes labels epart r (Lf r) (N r).
Let HS := vs_size _ _ _ _ _ _ VS.
Lemma all_started : exists P0 Ps, mapM (begin_rank f32 dim SIZE) Ls = Ok Ps /\ zlen Ps = SIZE /\ forall r, 0 <= r < SIZE -> started f32 dim SIZE (Lf r) (nthZ P0 Ps r).
Proof.
  assert (X : forall r, 0 <= r < SIZE -> exists P, started f32 dim SIZE (Lf r) P) by (intros r Hr; apply (start_ok f32 dim SIZE cells nodes labels npart0 epart VM VS r Hr _ _ (RO r Hr))).
  destruct (X 0 ltac:(lia)) as (P0 & _). exists P0. destruct (mapM_total (begin_rank f32 dim SIZE) Ls) as (Ps & EP).
  { intros L HL. apply In_nthZ with (d := no_local) in HL as (r & Hr & <-). rewrite LL in Hr. destruct (X r Hr) as (P & SP). exists P. exact (st_begin _ _ _ _ _ SP). }
  exists Ps. split; [exact EP|]. split; [rewrite (mapM_zlen _ _ _ EP); exact LL|]. intros r Hr. destruct (X r Hr) as (P & SP).
  pose proof (mapM_nthZ _ _ _ no_local P0 r EP) as Y. rewrite LL in Y. specialize (Y Hr). rewrite (st_begin _ _ _ _ _ SP) in Y. injection Y as <-. exact SP.
Qed.
Context (P0 : prepared) (Ps : list prepared).
Notation Pf := (nthZ P0 Ps).
Hypothesis LP : zlen Ps = SIZE.
Hypothesis ST : forall r, 0 <= r < SIZE -> started f32 dim SIZE (Lf r) (Pf r).
Definition Hs : list hgrank := map (fun r => brings (Lf r) (Pf r)) (range SIZE).
Lemma Hs_ok : mapM (fun r => do L <- get Ls r; do P <- get Ps r; ret (brings L P)) (range SIZE) = Ok Hs.
Proof. apply mapM_ok. intros r Hr. apply in_range in Hr. rewrite (get_nthZ no_local) by lia. rewrite (get_nthZ P0) by lia. reflexivity. Qed.
Lemma Hs_rank r : 0 <= r < SIZE -> rank_of Hs r = brings (Lf r) (Pf r).
Proof. intros Hr. unfold rank_of, Hs. rewrite (nthZ_map _ 0) by (rewrite zlen_range; lia). rewrite nthZ_range by exact Hr. reflexivity. Qed.
Lemma node_of r k : 0 <= r < SIZE -> global_node (rank_of Hs r) k = gl (N r) k.
Proof. intros Hr. unfold global_node, gl. rewrite Hs_rank by exact Hr. rewrite (h_nodes_eq f32 dim SIZE cells nodes labels epart r _ _ (RO r Hr) _ (ST r Hr)). reflexivity. Qed.
Lemma halo_nodes_of r k : 0 <= r < SIZE -> In k (hk_nodes (rank_of Hs r)) <-> 0 <= k < zlen (N r) /\ cut_at dim cells epart r (gl (N r) k).
Proof. intros Hr. rewrite Hs_rank by exact Hr. apply (h_halonodes f32 dim SIZE cells nodes labels npart0 epart VM VS r Hr _ _ (RO r Hr) _ (ST r Hr)). Qed.
Lemma cut_several r g : 0 <= r < SIZE -> cut_at dim cells epart r g -> 1 < SIZE.
Proof. intros Hr (a & b & F & Ha & Hb & Oa & Ob & _). destruct (proj2 (vs_owners _ _ _ _ _ _ VS) b (proj1 Hb)). lia. Qed.
Lemma gc_nth r c : 0 <= r < SIZE -> iscell (lo_cells (Lf r)) c -> nthZ 0 (lo_cell (Lf r)) c = gc (Lf r) c.
Proof. intros Hr Hc. apply nthZ_dflt. rewrite <- (len_cells (RO r Hr)). exact Hc. Qed.
(** a ghost at a halo node belongs to a cell with this node *)
Lemma ghost_at_cell s g e : 0 <= s < SIZE -> In e (ghosts_at (rank_of Hs s) g) -> exists k, 0 <= k < zlen (N s) /\ gl (N s) k = g /\ In e (nthZ [] (hk_ghost (brings (Lf s) (Pf s))) k) /\ iscell (lo_cells (Lf s)) (ng_cell e) /\ In g (cell cells (gc (Lf s) (ng_cell e))) /\
  ng_fcenter e = nthZ vzero (map fg_center (ge_faces (pr_g (Pf s)))) (ng_face e).
Proof.
  intros Hs' He. unfold ghosts_at in He. apply in_flat_map in He as (k & Hk & He). destruct (Z.eqb_spec (global_node (rank_of Hs s) k) g) as [Eg|]; [|destruct He]. rewrite node_of in Eg by exact Hs'. apply (halo_nodes_of s k Hs') in Hk as (Hk & _).
  rewrite Hs_rank in He by exact Hs'. destruct (h_ghosts f32 dim SIZE cells nodes labels npart0 epart VM VS s Hs' _ _ (RO s Hs') _ (ST s Hs') k e Hk He) as (_ & A & B & C). exists k. rewrite Eg in B. auto 8.
Qed.
Lemma exchange_wf : wf_exchange SIZE (lo_parts (Lf 0)) Hs.
Proof.
  constructor.
  - split; [exact HS|]. unfold Hs. rewrite zlen_map, zlen_range; lia.
  - intros r Hr. cbv zeta. pose proof (h_ghost_len f32 dim SIZE cells nodes labels epart r _ _ (RO r Hr) _ (ST r Hr)) as L1. pose proof (h_nodehalo_len f32 dim SIZE cells nodes labels epart r _ _ (RO r Hr) _ (ST r Hr)) as L2.
    pose proof (h_nodes_eq f32 dim SIZE cells nodes labels epart r _ _ (RO r Hr) _ (ST r Hr)) as EN. pose proof (halo_nodes_of r) as HN. rewrite Hs_rank in * by exact Hr.
    split; [cbn [brings hk_nodes]; apply NoDup_filter, NoDup_range|]. split; [rewrite EN; exact (ro_nodup _ _ _ _ _ _ _ _ _ (RO r Hr))|]. split; [rewrite EN, L1; reflexivity|]. split; [lia|].
    intros i Hi. apply (HN i Hr) in Hi as (Hi & _). rewrite L1. split; [exact Hi|]. intros e He. destruct (h_ghosts f32 dim SIZE cells nodes labels npart0 epart VM VS r Hr _ _ (RO r Hr) _ (ST r Hr) i e Hi He) as (A & B & _).
    split; [|lia]. cbn [brings hk_cell]. rewrite <- (len_cells (RO r Hr)). exact B.
  - intros r i Hr Hi. cbv zeta. rewrite node_of by exact Hr. apply (halo_nodes_of r i Hr) in Hi as (Hi & HC). pose proof (cut_several r _ Hr HC) as HS1. destruct HC as (a & b & F & Ha & Hb & Oa & Ob & Hin).
    assert (Hga : In (gl (N r) i) (cell cells a)) by (apply (proj2 (proj2 (proj2 Ha))); exact Hin).
    destruct (ro_parts _ _ _ _ _ _ _ _ _ (RO 0 ltac:(lia)) HS1) as (LPa & HP). destruct (HP _ a (proj1 Ha) Hga) as (ND & HIn).
    destruct (wm_rows _ _ _ (vm_mesh _ _ _ _ VM) (cell cells a)) as (_ & _ & HR); [apply nthZ_In; exact (proj1 Ha)|]. split; [rewrite LPa; apply HR; exact Hga|]. split; [exact ND|]. split; [apply HIn; exists a; split; [exact (proj1 Ha)|]; split; [exact Hga | exact Oa]|].
    intros p Hp. apply HIn in Hp as (c' & Hc' & Hgc & Op). split; [rewrite <- Op; apply (proj2 (vs_owners _ _ _ _ _ _ VS)); exact Hc'|]. intros Np. rewrite Hs_rank by exact Hr. cbn [brings hk_neigh]. apply (ro_neigh _ _ _ _ _ _ _ _ _ (RO r Hr)).
    split; [exact Np|]. exists a, c'. split; [exact (proj1 Ha)|]. split; [exact Hc'|]. split; [exact Oa|]. split; [exact Op|]. exists (gl (N r) i). split; [exact Hga | exact Hgc].
  - intros r p Hr. rewrite Hs_rank by exact Hr. cbn [brings hk_neigh]. intros Hp. apply (ro_neigh _ _ _ _ _ _ _ _ _ (RO r Hr)) in Hp as (_ & c & c' & _ & Hc' & _ & Op & _). rewrite <- Op. apply (proj2 (vs_owners _ _ _ _ _ _ VS)). exact Hc'.
  - intros r Hr. cbv zeta. split.
    + rewrite Hs_rank by exact Hr. cbn [brings hk_ext]. replace (map (fun row => nthZ 0 row 0) (lo_ext (Lf r))) with (map (hd (-1)) (lo_ext (Lf r))); [exact (ro_extnodup _ _ _ _ _ _ _ _ _ (RO r Hr))|].
      apply map_ext_in. intros row Hrow. apply (ro_ext _ _ _ _ _ _ _ _ _ (RO r Hr)) in Hrow as (c & -> & _). reflexivity.
    + intros i Hi. pose proof (node_of r i Hr) as EG. apply (halo_nodes_of r i Hr) in Hi as (Hi & HC). pose proof HC as (a & b & F & Ha & Hb & Oa & Ob & Hin).
      assert (Hga : In (gl (N r) i) (cell cells a)) by (apply (proj2 (proj2 (proj2 Ha))); exact Hin).
      destruct (h_nodehalos f32 dim SIZE cells nodes labels npart0 epart VM VS r Hr _ _ (RO r Hr) _ (ST r Hr) i Hi) as (W & pad & EW & HW). rewrite EG. rewrite Hs_rank by exact Hr. exists W, pad. split; [exact EW|]. split.
      * intros h Hh. apply HW in Hh as (_ & Hh & _). cbn [brings hk_ext]. split; [exact Hh|]. destruct (halo_row (RO r Hr) h Hh) as (Er & _). rewrite Er. discriminate.
      * intros s e Hs' Ns He. destruct (ghost_at_cell s _ e Hs' He) as (k & Hk & _ & _ & Hc & Hgc & _). destruct (gc_ok (RO s Hs') _ Hc) as (Gc & Go).
        destruct (halo_onto (RO r Hr) (gc (Lf s) (ng_cell e)) Gc) as (h & Hh & Eh); [lia | exists a; split; [exact (proj1 Ha)|]; split; [exact Oa|]; exists (gl (N r) i); split; [exact Hgc | exact Hga]|].
        exists h. split; [apply HW; split; [exact HC|]; split; [exact Hh | rewrite Eh; exact Hgc]|]. split; [exact Hh|]. cbn [brings hk_ext]. rewrite Hs_rank by exact Hs'. cbn [brings hk_cell]. rewrite (gc_nth s _ Hs' Hc). rewrite <- Eh.
        destruct (halo_row (RO r Hr) h Hh) as (Er & _). unfold gh. rewrite Er. reflexivity.
Qed.

Context (outs : list hgout).
Notation Of := (nthZ no_out outs).
Hypothesis LO : zlen outs = SIZE.
Hypothesis EX : forall r, 0 <= r < SIZE -> exchanged SIZE Hs r (Of r).
Definition Kf (r : Z) : rankdata := rank_data (Lf r) (Of r).
Lemma Kf_valid r : 0 <= r < SIZE -> valid_rank dim SIZE (lo_cells (Lf r)) (lo_vertex (Lf r)) (lo_label (Lf r)) (Kf r).
Proof.
  intros Hr. pose proof (EX r Hr) as X. pose proof (h_ghost_len f32 dim SIZE cells nodes labels epart r _ _ (RO r Hr) _ (ST r Hr)) as L1. rewrite <- Hs_rank in L1 by exact Hr. destruct (ex_size _ _ _ _ X) as (S1 & S2).
  assert (DEC : forall k, 0 <= k < zlen (N r) -> In k (hk_nodes (rank_of Hs r)) \/ ~ In k (hk_nodes (rank_of Hs r))) by (intros k _; destruct (in_dec Z.eq_dec k (hk_nodes (rank_of Hs r))); auto).
  apply (rank_valid VM VS Hr (RO r Hr)); try reflexivity; cbn [Kf rank_data rk_info rk_hg rk_nhg rk_ext]; rewrite (len_vertex (RO r Hr)).
  - split; [lia|]. intros k Hk. destruct (DEC k Hk) as [Hin|Hout].
    + destruct (ex_nodes _ _ _ _ X k Hin) as (A & B). rewrite B, zlen_map. destruct (Forall2_nthZ _ (0, {| ng_pt := vzero; ng_cell := 0; ng_name := 0; ng_face := 0; ng_fcenter := vzero; ng_fnormal := vzero |}) {| g_pt := vzero; g_cell := 0; g_name := 0; g_last := 0 |} _ _ A) as (A1 & _). exact A1.
    + destruct (ex_others _ _ _ _ X k ltac:(lia) Hout) as (A & B). rewrite A, B. reflexivity.
  - split; [lia|]. destruct (ex_numbers _ _ _ _ X) as (Z0 & EN). split; [exact Z0|]. intros k e Hk He. destruct (DEC k Hk) as [Hin|Hout]; [|destruct (ex_others _ _ _ _ X k ltac:(lia) Hout) as (A & _); rewrite A in He; destruct He].
    split; [|split].
    + apply in_range. rewrite <- EN. apply in_flat_map. exists k. split; [exact Hin | apply in_map; exact He].
    + destruct (ex_nodes _ _ _ _ X k Hin) as (A & _). apply In_nthZ with (d := {| g_pt := vzero; g_cell := 0; g_name := 0; g_last := 0 |}) in He as (j & Hj & <-).
      destruct (Forall2_nthZ _ (0, {| ng_pt := vzero; ng_cell := 0; ng_name := 0; ng_face := 0; ng_fcenter := vzero; ng_fnormal := vzero |}) {| g_pt := vzero; g_cell := 0; g_name := 0; g_last := 0 |} _ _ A) as (A1 & A2).
      destruct (A2 j ltac:(lia)) as (_ & _ & A3 & _). rewrite Hs_rank in A3 by exact Hr. exact A3.
    + apply (halo_nodes_of r k Hr) in Hin as (_ & HC). apply (cut_local dim SIZE cells nodes labels npart0 epart VM VS r Hr (Lf r) (N r) (RO r Hr) (rank_data (Lf r) (Of r)) k (conj eq_refl eq_refl) Hk). exact HC.
Qed.
(** the second half *)
Lemma end_ok r : 0 <= r < SIZE -> exists nv di, let g := pr_g (Pf r) in let h := pr_h (Pf r) in
  let D := assembled dim (lo_cells (Lf r)) (lo_vertex (Lf r)) (lo_label (Lf r)) (Kf r) g (ge_conn g) h (pr_nodecell (Pf r)) (pr_cellnid (Pf r)) nv di in
  end_rank dim (Lf r) (Pf r) (Of r) = Ok D /\ consistent dim D /\ faithful dim SIZE (lo_cells (Lf r)) (lo_vertex (Lf r)) (lo_label (Lf r)) (Kf r) D.
Proof.
  intros Hr. pose proof (Kf_valid r Hr) as VR. pose proof (st_parts _ _ _ _ _ (ST r Hr) (Kf r) (conj eq_refl eq_refl)) as PP.
  destruct (build_ok f32 _ _ _ _ _ _ _ _ _ _ _ VR PP) as (nv & di & E1 & E2 & E3). exists nv, di. cbv zeta in *. split; [|split].
  - unfold build_domain in E1. change (first_half f32 dim SIZE (lo_cells (Lf r)) (lo_vertex (Lf r)) (lo_label (Lf r)) (rk_ext (Kf r)) (rk_node (Kf r))) with (begin_rank f32 dim SIZE (Lf r)) in E1.
    rewrite (st_begin _ _ _ _ _ (ST r Hr)) in E1. cbn [bind] in E1. exact E1.
  - apply (consistent_ok dim SIZE _ _ _ _ VR _ _ _ _ _ PP); assumption.
  - apply (faithful_ok dim SIZE _ _ _ _ VR _ _ _ _ _ PP).
Qed.
End All.
