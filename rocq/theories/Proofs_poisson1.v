(** * Proofs_poisson1: any field, as the linear system of a rank sees it. *)
From Coq Require Import Reals Lra Permutation Sorted.
From Verif Require Import Py PyLemmas Model_part Spec_part Model_label Model_conn Spec_conn Proofs_conn1 Proofs_conn2 Model_geom Spec_geom Proofs_geom1 Proofs_geom2 Proofs_geom3
  Model_halo Spec_halo Model_interp Spec_interp Proofs_interp4 Proofs_interp5 Proofs_interp6 Spec_lsq Proofs_lsq Properties_lsq Model_fvm Spec_fvm Proofs_fvm1 Proofs_fvm2 Properties_fvm Model_bc Spec_bc Spec_bc3 Proofs_label Proofs_bc Proofs_bc2 Proofs_bc3 Properties_bc3 Model_domain Spec_domain Proofs_domain1 Proofs_domain4
  Model_comm Model_parallel Spec_parallel Proofs_parallel1 Proofs_parallel6 Properties_parallel Model_run Spec_run Proofs_run1 Proofs_run2 Proofs_run3 Proofs_run4 Proofs_run5 Proofs_run6 Spec_run2 Model_run2 Proofs_run7 Proofs_run8 Proofs_run9 Proofs_run10 Proofs_run11 Proofs_run12 Proofs_run13 Proofs_run14 Proofs_run15 Spec_run3 Proofs_run16 Model_poisson Spec_poisson.
From Verif Require Model_linsys Spec_linsys Properties_linsys.
Open Scope Z_scope.

(** a list of entries numbered in order *)
Lemma numbered {A} (f : A -> Z) (l : list A) n d : map f l = range n -> forall e, In e l -> 0 <= f e < zlen l /\ nthZ d l (f e) = e.
Proof.
  intros E e He. destruct (In_nthZ d _ _ He) as (i & Hi & Ei). assert (Hn : zlen l = zlen (range n)) by (rewrite <- E, zlen_map; reflexivity).
  assert (EI : f e = i). { rewrite <- Ei. rewrite <- (nthZ_map f d 0) by exact Hi. rewrite E. apply nthZ_range. destruct (Z_le_gt_dec 0 n); [rewrite zlen_range in Hn by assumption; lia|]. unfold range in Hn. replace (Z.to_nat n) with O in Hn by lia. change (zlen (map Z.of_nat (seq 0 0))) with 0 in Hn. lia. }
  rewrite EI. split; [lia | exact Ei].
Qed.

Lemma Forall2_impl_in {A B} (P Q : A -> B -> Prop) l l' : (forall a b, In a l -> In b l' -> P a b -> Q a b) -> Forall2 P l l' -> Forall2 Q l l'.
Proof. intros H F. induction F as [|a b l l' Hab F IH]; constructor; [apply H; [left; reflexivity | left; reflexivity | exact Hab]|]. apply IH. intros x y Hx Hy. apply H; right; assumption. Qed.

Section Ranks1.
Context (dim SIZE : Z) (cells : list (list Z)) (nodes : list pt) (labels epart : list Z) (Ds : list domain).
Hypothesis VM : valid_mesh dim cells nodes labels.
Hypothesis PL : dim = 2 -> planar nodes.
Hypothesis RP : represents dim SIZE cells nodes labels epart Ds.
Hypothesis SC : star_connected dim cells.
Notation Dr := (domain_of Ds).
Hypothesis CS : forall r, 0 <= r < SIZE -> consistent dim (Dr r).
Notation PAr := (rp_part _ _ _ _ _ _ _ RP).

Lemma field_seen r X : 0 <= r < SIZE -> exists W, sees dim SIZE cells nodes labels Ds [] [] r X W /\ forall bcd, Spec_linsys.samples (dom_sys (Dr r) bcd) X W.
Proof.
  intros Hr. set (D := Dr r) in *. pose proof (PAr r Hr) as PA. destruct (rp_ghosts _ _ _ _ _ _ _ RP r Hr) as (R1 & R2 & R3). fold D in PA, R1, R2, R3.
  destruct (pa_sizes _ _ _ _ _ _ _ PA) as (_ & S2 & _ & SF & SC' & SH & SV & _).
  set (L := flat_map (fun k => if nthZ 0 (dm_nodename D) k =? 10 then haloghosts_of D k else []) (range (zlen (dm_nodeglob D)))).
  assert (EL : map g_last L = range (dm_nhg D)). { rewrite <- R3. unfold L. rewrite map_flat_map. apply flat_map_ext. intros k. destruct (nthZ 0 (dm_nodename D) k =? 10); reflexivity. }
  set (W := {| w_c := map (fun c => X (gcell D c)) (range (zlen (dm_center D))); w_ghost := map (fun f => X (gcell D (left_of D f))) (range (zlen (dm_cellid D)));
               w_halo := map (fun h => X (ghalo D h)) (range (zlen (dm_centerh D))); w_haloghost := map (fun e => X (ghalo D (g_cell e))) L |}).
  assert (NH : 0 <= dm_nhg D) by (pose proof (cs_bc _ _ (CS r Hr)) as WB; destruct (wb_size _ WB) as (_ & _ & _ & Z4); exact Z4).
  assert (LW : zlen L = dm_nhg D) by (rewrite <- (zlen_map g_last), EL, zlen_range by exact NH; reflexivity).
  assert (HC : forall c, iscell_of D c -> nthZ 0%R (w_c W) c = X (gcell D c)). { intros c Hc. cbn [W w_c]. unfold iscell_of in Hc. rewrite (nthZ_map _ 0), nthZ_range by (rewrite ?zlen_range; lia). reflexivity. }
  assert (HH : forall h, ishalo_of D h -> nthZ 0%R (w_halo W) h = X (ghalo D h)). { intros h Hh. cbn [W w_halo]. unfold ishalo_of in Hh. rewrite (nthZ_map _ 0), nthZ_range by (rewrite ?zlen_range; lia). reflexivity. }
  assert (HG : forall f, isface D f -> nthZ 0%R (w_ghost W) f = X (gcell D (left_of D f))). { intros f Hf. cbn [W w_ghost]. unfold isface in Hf. rewrite (nthZ_map _ 0), nthZ_range by (rewrite ?zlen_range; lia). reflexivity. }
  assert (HHG : forall k e, isnode_of D k -> nthZ 0 (dm_nodename D) k = 10 -> In e (haloghosts_of D k) -> nthZ 0%R (w_haloghost W) (g_last e) = X (ghalo D (g_cell e))).
  { intros k e Hk E10 He. cbn [W w_haloghost]. assert (HeL : In e L) by (unfold L; apply in_flat_map; exists k; split; [apply in_range; exact Hk | rewrite E10; exact He]).
    destruct (numbered g_last L (dm_nhg D) gpad EL e HeL) as (HB & HE). rewrite (nthZ_map _ gpad) by exact HB. rewrite HE. reflexivity. }
  exists W. split.
  - constructor.
    + unfold wf_values. cbn [W w_c w_ghost w_halo w_haloghost]. rewrite !zlen_map, !zlen_range by apply zlen_nonneg. auto.
    + exact HC.
    + exact HH.
    + intros f c HO Hf Ec. unfold D in HG. rewrite (HG f Hf), Ec. reflexivity.
    + intros k Hk E10. destruct (R2 k Hk E10) as (FA & _). cbv zeta in FA. eapply (Forall2_impl_in); [|exact FA]. cbn beta. intros se e Hse He (_ & _ & F3 & F4). rewrite (HHG k e Hk E10 He), F4. reflexivity.
  - intros bcd. destruct (cs_system _ _ (CS r Hr) bcd [] ltac:(intros f [])) as (WY & _). unfold Spec_linsys.samples. unfold Spec_linsys.nbcells, Spec_linsys.nbhalos, Spec_linsys.nbnodes. cbn [dom_sys Model_linsys.sy_N dom_node nd_centerc nd_centerh nd_vertex nd_ghost nd_haloghost].
    fold D. split; [|split; [|split]].
    + intros c Hc. rewrite HC by (unfold iscell_of; lia). unfold Spec_linsys.global_cell, gcell. cbn [dom_sys Model_linsys.sy_l2g]. f_equal. apply nthZ_indep. lia.
    + intros h Hh. rewrite HH by (unfold ishalo_of; lia). unfold Spec_linsys.global_halo, ghalo. cbn [dom_sys Model_linsys.sy_hext]. f_equal. apply nthZ_indep. split; [lia|]. apply (Spec_linsys.wy_hext _ _ _ _ _ WY). exact Hh.
    + intros k e Hk He. assert (Hk' : isnode_of D k) by (unfold isnode_of; lia). destruct (pa_node_ghosts _ _ _ _ _ _ _ PA k Hk') as (G1 & G2). destruct (G2 e He) as (_ & Ec & _).
      assert (If : isface D (g_last e)). { assert (X0 : In (g_last e) (map g_last (ghosts_of D k))) by (apply in_map; exact He). rewrite G1 in X0. apply filter_In in X0 as (X0 & _). apply in_range in X0. exact X0. }
      rewrite (HG _ If), Ec. unfold Spec_linsys.global_cell, gcell. cbn [dom_sys Model_linsys.sy_l2g]. f_equal. apply nthZ_indep. pose proof (Spec_linsys.wy_ghost _ _ _ _ _ WY k e Hk He) as Y. unfold Spec_linsys.nbcells in Y. cbn [dom_sys Model_linsys.sy_N dom_node nd_centerc] in Y. fold D in Y. lia.
    + intros k e Hk He. assert (Hk' : isnode_of D k) by (unfold isnode_of; lia). destruct (Z.eq_dec (nthZ 0 (dm_nodename D) k) 10) as [E10|N10]; [|exfalso; pose proof (R1 k Hk' N10) as Y; unfold haloghosts_of in Y; rewrite Y in He; destruct He].
      rewrite (HHG k e Hk' E10 He). unfold Spec_linsys.global_halo, ghalo. cbn [dom_sys Model_linsys.sy_hext]. f_equal. apply nthZ_indep. split; [lia|]. apply (Spec_linsys.wy_hext _ _ _ _ _ WY). exact (Spec_linsys.wy_haloghost _ _ _ _ _ WY k e Hk He).
Qed.
End Ranks1.
