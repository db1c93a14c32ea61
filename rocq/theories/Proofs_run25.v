(** * Proofs_run25: room for the halo ghosts of nonslip sides. *)
From Coq Require Import String Reals Lra Psatz Permutation Sorted.
From Verif Require Import Py PyLemmas Model_part Spec_part Model_label Model_conn Spec_conn Proofs_conn1 Proofs_conn2 Model_geom Spec_geom Proofs_geom1 Proofs_geom2 Proofs_geom3
  Model_halo Spec_halo Model_interp Spec_interp Spec_lsq Proofs_lsq Model_fvm Spec_fvm Proofs_fvm1 Proofs_fvm2 Model_bc Spec_bc Spec_bc3 Proofs_label Proofs_bc Proofs_bc2 Proofs_bc3 Model_domain Spec_domain
  Model_comm Model_parallel Spec_parallel Proofs_parallel1 Model_run Spec_run Proofs_run1 Proofs_run2 Proofs_run3 Proofs_run4 Proofs_run5 Proofs_run6 Spec_run2 Model_run2 Proofs_run7 Proofs_run8 Proofs_run9 Proofs_run10 Proofs_run11 Proofs_run12 Proofs_run13 Proofs_run14 Proofs_run15.
From Verif Require Import Model_sw Proofs_sw5 Proofs_sw6 Proofs_sw7 Model_run3 Spec_run4 Proofs_run17 Proofs_run18 Proofs_run19 Proofs_run20 Proofs_run21 Proofs_run22 Proofs_run23 Proofs_run24.
From Verif Require Spec_sw Properties_sw Proofs_sw8.
Open Scope Z_scope.



Lemma flat_map_zlen_perm {A B C} (f : A -> list B) (g : A -> list C) l : (forall a, In a l -> zlen (f a) = zlen (g a)) -> zlen (flat_map f l) = zlen (flat_map g l).
Proof.
  induction l as [|a l IH]; intros H; [reflexivity|]. cbn [flat_map]. rewrite !zlen_app, (H a (or_introl eq_refl)), IH; [reflexivity|]. intros b Hb. apply H. right. exact Hb.
Qed.
Section Room.
Context (SIZE : Z) (cells : list (list Z)) (nodes : list pt) (labels npart0 epart : list Z) (st : setting).
Hypothesis VM : valid_mesh 2 cells nodes labels.
Hypothesis PL : planar nodes.
Hypothesis VS : valid_split 2 SIZE cells nodes npart0 epart.
Notation Ds := (se_domains st).
Notation Dr := (domain_of (se_domains st)).
Hypothesis RP : represents 2 SIZE cells nodes labels epart Ds.
Hypothesis SC : star_connected 2 cells.
Hypothesis CS : forall r, 0 <= r < SIZE -> consistent 2 (Dr r).
Notation PAr := (rp_part _ _ _ _ _ _ _ RP).
Notation OW := (fun c Hc => proj2 (vs_owners _ _ _ _ _ _ VS) c Hc).
Notation others r g := (filter (fun p : Z * list Z => negb (owner epart (fst p) =? r)) (boundary_at cells g)).
Lemma halo_count r : 0 <= r < SIZE -> dm_nhg (Dr r) = zlen (flat_map (fun k => map (fun p => (p, gnode (Dr r) k)) (others r (gnode (Dr r) k))) (range (zlen (dm_nodeglob (Dr r))))).
Proof.
  intros Hr. destruct (rp_ghosts _ _ _ _ _ _ _ RP r Hr) as (R1 & R2 & R3).
  assert (NH : 0 <= dm_nhg (Dr r)) by (pose proof (cs_bc _ _ (CS r Hr)) as WB; destruct (wb_size _ WB) as (_ & _ & _ & Z4); exact Z4).
  rewrite <- (zlen_range (dm_nhg (Dr r))) by exact NH. rewrite <- R3. apply flat_map_zlen_perm. intros k Hk. apply in_range in Hk. rewrite zlen_map.
  pose proof (halo_boundary 2 SIZE cells nodes labels epart Ds VM (fun _ => PL) RP SC OW r k Hr Hk) as HP. apply Permutation_length in HP. rewrite map_length in HP.
  destruct (Z.eqb_spec (nthZ 0 (dm_nodename (Dr r)) k) 10) as [E10|N10].
  - destruct (R2 k Hk E10) as (HF & _). rewrite zlen_map. unfold zlen. rewrite <- HP. f_equal. clear - HF. induction HF; [reflexivity | cbn; congruence].
  - change (zlen (@nil Z)) with 0. destruct (others r (gnode (Dr r) k)) as [|(c, F) l] eqn:EF; [reflexivity|]. exfalso.
    assert (X : In (c, F) (others r (gnode (Dr r) k))) by (rewrite EF; left; reflexivity). apply filter_In in X as (X & Y). cbn [fst] in Y. apply (in_boundary_at 2 cells nodes labels VM) in X as (X1 & X2).
    apply N10. apply (shared_cut 2 SIZE cells nodes labels epart Ds RP SC r k c Hr Hk (proj1 (proj1 X1))); [apply (proj1 X1); exact X2|]. intros E. rewrite E, Z.eqb_refl in Y. discriminate Y.
Qed.
Lemma room_readable bc : room cells epart SIZE -> readable SIZE st bc.
Proof.
  intros RM r Hr l i e _ Hi He NE. cbn [dom_bc bd_hg bd_nbhalos bd_halonodes] in *. destruct (sizes 2 SIZE cells nodes labels epart st RP r Hr) as (_ & C2). rewrite C2.
  assert (LE : dm_nhg (Dr r) <= zlen (dm_hext (Dr r))).
  { rewrite (halo_count r Hr). destruct (RM r Hr) as (m & M1 & M2). set (T := flat_map _ _).
    assert (WE : forall x, In x T -> wall_end cells epart r (fst (fst x), snd (fst x), snd x)).
    { intros x Hx. apply in_flat_map in Hx as (k & Hk & Hx). apply in_range in Hk. apply in_map_iff in Hx as ((c & F) & <- & Hx). cbn [fst snd]. apply filter_In in Hx as (Hx & Ho). cbn [fst] in Ho. unfold boundary_at in Hx. apply filter_In in Hx as (Hx & Hg). cbn [snd] in Hg.
      split; [exact Hx|]. split; [apply mem_In; exact Hg|]. split; [intros E; rewrite E, Z.eqb_refl in Ho; discriminate Ho|]. exact (node_cell 2 SIZE cells nodes labels epart Ds RP r k Hr Hk). }
    assert (ND : NoDup T).
    { apply NoDup_flat_map; [apply NoDup_range | |].
      - intros k Hk. apply NoDup_map_on; [intros x y _ _ E; injection E; auto|]. apply NoDup_filter. unfold boundary_at. apply NoDup_filter. exact (boundary_NoDup 2 cells nodes labels VM).
      - intros k k' x Hk Hk' H1 H2. apply in_range in Hk, Hk'. apply in_map_iff in H1 as (p & <- & _). apply in_map_iff in H2 as (p' & E & _). injection E as _ E.
        symmetry. apply (nthZ_inj_NoDup (-1) (dm_nodeglob (Dr r))); [exact (proj1 (pa_nodes _ _ _ _ _ _ _ (PAr r Hr))) | exact Hk' | exact Hk | exact E]. }
    destruct (pa_halos _ _ _ _ _ _ _ (PAr r Hr)) as (_ & HH & _).
    assert (ND2 : NoDup (map (fun x => m (fst (fst x), snd (fst x), snd x)) T)).
    { apply NoDup_map_on; [|exact ND]. intros ((c & F) & g) ((c' & F') & g') Hx Hy E. cbn [fst snd] in E. pose proof (M2 _ _ (WE _ Hx) (WE _ Hy) E) as X. cbn [fst snd] in X. injection X as -> -> ->. reflexivity. }
    assert (INC : incl (map (fun x => m (fst (fst x), snd (fst x), snd x)) T) (map (ghalo (Dr r)) (range (zlen (dm_hext (Dr r)))))).
    { intros y Hy. apply in_map_iff in Hy as (x & <- & Hx). destruct (proj2 (HH _) (M1 _ (WE _ Hx))) as (h & Hh & Eh). rewrite <- Eh. apply in_map. apply in_range. exact Hh. }
    pose proof (NoDup_incl_length ND2 INC) as LL. rewrite !map_length in LL. unfold zlen at 1. pose proof (zlen_range (zlen (dm_hext (Dr r))) (zlen_nonneg _)) as ZR. unfold zlen at 1 in ZR. lia. }
  destruct (rp_ghosts _ _ _ _ _ _ _ RP r Hr) as (R1 & R2 & R3). apply (In_where (dm_nodename (Dr r)) 10 i) in Hi as (B1 & B2). pose proof (nodes_len 2 SIZE cells nodes labels epart Ds RP CS r Hr) as (_ & _ & B3).
  cut (0 <= g_last e < dm_nhg (Dr r)); [lia|]. apply in_range. rewrite <- R3. apply in_flat_map. exists i.
  split; [apply in_range; lia|]. rewrite B2. apply in_map. unfold haloghosts_of, real_ghosts. apply filter_In. split; [exact He|]. destruct (Z.eqb_spec (g_last e) (-1)); [contradiction | reflexivity].
Qed.
End Room.
