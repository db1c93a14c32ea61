(** * Proofs_parallel6: the domains of all the ranks represent the mesh. *)
From Coq Require Import Reals Lra Permutation Sorted.
From Verif Require Import Py PyLemmas Model_part Spec_part Properties_part Model_file Properties_file Model_label Proofs_label Model_conn Spec_conn Proofs_conn1 Proofs_conn2 Model_geom Spec_geom Proofs_geom1 Proofs_geom2 Proofs_geom3
  Model_halo Spec_halo Proofs_halo1 Proofs_halo3 Model_periodic Model_interp Spec_interp Model_fvm Model_bc Proofs_bc Model_linsys Model_comm Model_haloghost Spec_haloghost Proofs_haloghost
  Model_domain Spec_domain Proofs_domain1 Proofs_domain2 Proofs_domain3 Proofs_domain4 Model_parallel Spec_parallel Proofs_parallel1 Proofs_parallel2 Proofs_parallel3 Proofs_parallel4 Proofs_parallel5.
Open Scope Z_scope.

Lemma flat_map_filter {A B} (p : A -> bool) (f : A -> list B) l : flat_map f (filter p l) = flat_map (fun x => if p x then f x else []) l.
Proof. induction l as [|x l IH]; [reflexivity|]. cbn [filter flat_map]. destruct (p x); cbn [flat_map]; rewrite IH; reflexivity. Qed.
Lemma map_flat_map {A B C} (g : B -> C) (f : A -> list B) l : map g (flat_map f l) = flat_map (fun x => map g (f x)) l.
Proof. induction l as [|x l IH]; [reflexivity|]. cbn [flat_map]. rewrite map_app, IH. reflexivity. Qed.
Lemma Forall2_map_in {A B C} (R : A -> C -> Prop) (R' : B -> C -> Prop) (f : A -> B) l l' : (forall x y, In x l -> R x y -> R' (f x) y) -> Forall2 R l l' -> Forall2 R' (map f l) l'.
Proof. intros H X. induction X as [|x y l l' HR X IH]; [constructor|]. cbn [map]. constructor; [apply H; [left; reflexivity | exact HR] | apply IH; intros a b Ha; apply H; right; exact Ha]. Qed.

Section All.
Context (f32 : R -> R) (dim SIZE : Z) (cells : list (list Z)) (nodes : list pt) (labels npart0 epart : list Z).
Hypothesis VM : valid_mesh dim cells nodes labels.
Hypothesis VS : valid_split dim SIZE cells nodes npart0 epart.
Context (Ls : list local) (N : Z -> list Z).
Hypothesis LL : zlen Ls = SIZE.
Notation Lf := (nthZ no_local Ls).
Hypothesis RO : forall r, 0 <= r < SIZE -> rank_ok dim SIZE cells nodes labels epart r (Lf r) (N r).
Let HS := vs_size _ _ _ _ _ _ VS.
Lemma build_all_ok : exists Ds, build_all f32 dim SIZE Ls = Ok Ds /\ represents dim SIZE cells nodes labels epart Ds /\ forall r, 0 <= r < SIZE -> consistent dim (domain_of Ds r) /\ dm_hext (domain_of Ds r) = lo_ext (Lf r) /\ dm_loctoglob (domain_of Ds r) = lo_cell (Lf r).
Proof.
  destruct (all_started f32 dim SIZE cells nodes labels npart0 epart VM VS Ls N LL RO) as (P0 & Ps & EP & LP & ST).
  set (HH := Hs SIZE Ls P0 Ps). pose proof (exchange_wf f32 dim SIZE cells nodes labels npart0 epart VM VS Ls N RO P0 Ps ST) as WE. fold HH in WE.
  destruct (exchange_ok SIZE _ HH WE) as (outs & EO & LO & EX'). assert (EX : forall r, 0 <= r < SIZE -> exchanged SIZE HH r (nthZ no_out outs r)). { intros r Hr. destruct (EX' r Hr) as (o & <- & Ho). exact Ho. } clear EX'.
  assert (EN : forall r, 0 <= r < SIZE -> exists nv di, let g := pr_g (nthZ P0 Ps r) in let h := pr_h (nthZ P0 Ps r) in
     let D := assembled dim (lo_cells (Lf r)) (lo_vertex (Lf r)) (lo_label (Lf r)) (Kf Ls outs r) g (ge_conn g) h (pr_nodecell (nthZ P0 Ps r)) (pr_cellnid (nthZ P0 Ps r)) nv di in
     end_rank dim (Lf r) (nthZ P0 Ps r) (nthZ no_out outs r) = Ok D /\ consistent dim D /\ faithful dim SIZE (lo_cells (Lf r)) (lo_vertex (Lf r)) (lo_label (Lf r)) (Kf Ls outs r) D).
  { intros r Hr. apply (end_ok f32 dim SIZE cells nodes labels npart0 epart VM VS Ls N RO P0 Ps ST outs EX r Hr). }
  set (F := fun r => do L <- get Ls r; do P <- get Ps r; do o <- get outs r; end_rank dim L P o).
  assert (EF : forall r, 0 <= r < SIZE -> F r = end_rank dim (Lf r) (nthZ P0 Ps r) (nthZ no_out outs r)). { intros r Hr. unfold F. rewrite (get_nthZ no_local) by lia. rewrite (get_nthZ P0) by lia. rewrite (get_nthZ no_out) by lia. reflexivity. }
  destruct (mapM_total F (range SIZE)) as (Ds & ED). { intros r Hr. apply in_range in Hr. destruct (EN r Hr) as (nv & di & E1 & _). rewrite EF by exact Hr. eexists. exact E1. }
  exists Ds. split.
  { unfold build_all. rewrite EP. cbn [bind]. rewrite (Hs_ok SIZE Ls LL P0 Ps LP). cbn [bind]. rewrite (get_nthZ no_local) by lia. cbn [bind]. change (map (fun r => brings (Lf r) (nthZ P0 Ps r)) (range SIZE)) with HH. fold HH. rewrite EO. cbn [bind]. exact ED. }
  pose proof (mapM_zlen _ _ _ ED) as LD. rewrite zlen_range in LD by lia.
  assert (DD : forall r, 0 <= r < SIZE -> end_rank dim (Lf r) (nthZ P0 Ps r) (nthZ no_out outs r) = Ok (domain_of Ds r)).
  { intros r Hr. rewrite <- EF by exact Hr. pose proof (mapM_nthZ F _ _ 0 no_domain r ED) as X. rewrite zlen_range in X by lia. specialize (X Hr). rewrite nthZ_range in X by exact Hr. exact X. }
  (* the tables of the domains *)
  assert (TA : forall r, 0 <= r < SIZE -> let D := domain_of Ds r in let h := pr_h (nthZ P0 Ps r) in consistent dim D /\ faithful dim SIZE (lo_cells (Lf r)) (lo_vertex (Lf r)) (lo_label (Lf r)) (rank_data (Lf r) (nthZ no_out outs r)) D /\
     dm_hext D = lo_ext (Lf r) /\ dm_centerh D = lo_center (Lf r) /\ dm_nodename D = h_nodename h /\ dm_fcenter D = map fg_center (ge_faces (pr_g (nthZ P0 Ps r))) /\ dm_nhg D = ho_size (nthZ no_out outs r) /\ dm_loctoglob D = lo_cell (Lf r) /\
     forall k, 0 <= k < zlen (N r) -> ghosts_of D k = map entry_of (nthZ [] (h_nodeghost h) k)).
  { intros r Hr. cbv zeta. destruct (EN r Hr) as (nv & di & E1 & E2 & E3). cbv zeta in E1, E2, E3. rewrite (DD r Hr) in E1. injection E1 as E1. rewrite E1. split; [exact E2|]. split; [exact E3|]. do 6 (split; [reflexivity|]).
    intros k Hk. unfold ghosts_of. cbn [assembled dm_nodeghost]. pose proof (Kf_valid f32 dim SIZE cells nodes labels npart0 epart VM VS Ls N RO P0 Ps ST outs EX r Hr) as VR. pose proof (st_parts _ _ _ _ _ (ST r Hr) (Kf Ls outs r) (conj eq_refl eq_refl)) as PP.
    assert (Hk' : 0 <= k < zlen (lo_vertex (Lf r))) by (rewrite (len_vertex (RO r Hr)); exact Hk).
    destruct (ghosts_padded dim SIZE _ _ _ _ VR _ _ _ _ _ PP) as (_ & X). rewrite (proj2 (X k Hk')). apply (nthZ_map (map entry_of) []).
    rewrite (proj1 (proj2 (hf_ghost _ _ _ _ _ _ _ _ (bu_hf _ _ _ _ _ _ _ _ _ _ _ PP)))). exact Hk'. }
  assert (GN : forall r, 0 <= r < SIZE -> dm_nodeglob (domain_of Ds r) = N r). { intros r Hr. destruct (TA r Hr) as (_ & FA & _). eapply D_glob; [exact (RO r Hr) | exact FA]. }
  split; [|intros r Hr; destruct (TA r Hr) as (A & _ & B & _ & _ & _ & _ & C & _); auto].
  (* the ghosts at a node *)
  assert (GA : forall s g, 0 <= s < SIZE -> ghosts_at_node (domain_of Ds s) g = map entry_of (ghosts_at (rank_of HH s) g)).
  { intros s g Hs'. destruct (TA s Hs') as (_ & _ & _ & _ & T1 & _ & _ & _ & T2). unfold ghosts_at_node, ghosts_at. rewrite map_flat_map. unfold HH. rewrite (Hs_rank dim SIZE cells nodes npart0 epart VS Ls P0 Ps s Hs'). cbn [brings hk_nodes hk_ghost]. unfold where_eq. rewrite flat_map_filter.
    rewrite GN by exact Hs'. rewrite (h_nodename_len f32 dim SIZE cells nodes labels epart s _ _ (RO s Hs') _ (ST s Hs')). apply flat_map_ext_in. intros k Hk. apply in_range in Hk.
    replace (gnode (domain_of Ds s) k) with (gl (N s) k) by (unfold gnode, gl; rewrite GN by exact Hs'; apply nthZ_dflt; exact Hk). rewrite <- (node_of f32 dim SIZE cells nodes labels npart0 epart VS Ls N RO P0 Ps ST s k Hs'). rewrite T1, (T2 k Hk).
    unfold global_node. rewrite (Hs_rank dim SIZE cells nodes npart0 epart VS Ls P0 Ps s Hs'). rewrite (st_ghost _ _ _ _ _ (ST s Hs')). destruct (_ =? g), (_ =? 10); reflexivity. }
  assert (OA : forall r g, others_at_node SIZE Ds r g = map (fun se => (fst se, entry_of (snd se))) (ghosts_elsewhere SIZE HH r g)).
  { intros r g. unfold others_at_node, ghosts_elsewhere. rewrite map_flat_map. apply flat_map_ext_in. intros s Hs'. apply in_range in Hs'. destruct (s =? r); [reflexivity|]. rewrite (GA s g Hs'), !map_map. reflexivity. }
  constructor; [exact LD | |].
  - intros r Hr. destruct (TA r Hr) as (_ & FA & A & B & _). apply (part_ok dim SIZE cells nodes labels npart0 epart VM VS r Hr _ _ (RO r Hr) _ _ FA A B).
  - intros r Hr. unfold received_ghosts. destruct (TA r Hr) as (_ & FA & A & B & T1 & T2 & T3 & T5 & T4). cbv zeta in *. pose proof (EX r Hr) as X.
    pose proof (h_ghost_len f32 dim SIZE cells nodes labels epart r _ _ (RO r Hr) _ (ST r Hr)) as L1. rewrite <- (Hs_rank dim SIZE cells nodes npart0 epart VS Ls P0 Ps r Hr) in L1. fold HH in L1.
    assert (ISN : forall k, isnode_of (domain_of Ds r) k -> 0 <= k < zlen (N r)) by (intros k; unfold isnode_of; rewrite GN by exact Hr; tauto).
    assert (HN : forall k, In k (hk_nodes (rank_of HH r)) <-> 0 <= k < zlen (N r) /\ nthZ 0 (dm_nodename (domain_of Ds r)) k = 10).
    { intros k. unfold HH. rewrite (Hs_rank dim SIZE cells nodes npart0 epart VS Ls P0 Ps r Hr). cbn [brings hk_nodes]. rewrite In_where, T1. rewrite (h_nodename_len f32 dim SIZE cells nodes labels epart r _ _ (RO r Hr) _ (ST r Hr)). tauto. }
    assert (HG : forall k, 0 <= k < zlen (N r) -> haloghosts_of (domain_of Ds r) k = nthZ [] (ho_ghost (nthZ no_out outs r)) k /\ exists pad pad', nthZ [] (dm_hginfo (domain_of Ds r)) k = nthZ [] (ho_info (nthZ no_out outs r)) k ++ pad /\ nthZ [] (dm_haloghost (domain_of Ds r)) k = nthZ [] (ho_ghost (nthZ no_out outs r)) k ++ pad').
    { intros k Hk. destruct (fa_halo_ghosts _ _ _ _ _ _ _ FA k ltac:(rewrite (len_vertex (RO r Hr)); exact Hk)) as (X1 & X2). split; [exact X1 | exact X2]. }
    split; [|split].
    + intros k Hk Nk. apply ISN in Hk. rewrite (proj1 (HG k Hk)). apply (ex_others _ _ _ _ X); [rewrite L1; exact Hk|]. intros Hin. apply HN in Hin as (_ & Hin). contradiction.
    + intros k Hk Ek. apply ISN in Hk. assert (Hin : In k (hk_nodes (rank_of HH r))) by (apply HN; auto). destruct (ex_nodes _ _ _ _ X k Hin) as (X1 & X2). cbv zeta in X1, X2. destruct (HG k Hk) as (G1 & pad & pad' & G2 & G3).
      assert (EG : gnode (domain_of Ds r) k = global_node (rank_of HH r) k). { unfold HH. rewrite (node_of f32 dim SIZE cells nodes labels npart0 epart VS Ls N RO P0 Ps ST r k Hr). unfold gnode, gl. rewrite GN by exact Hr. apply nthZ_dflt. exact Hk. }
      rewrite EG, OA. split.
      * rewrite G1. apply (Forall2_map_in (received HH r) _ (fun se => (fst se, entry_of (snd se)))) with (2 := X1). intros (s & e) x Hse (Y1 & Y2 & Y3). cbn [fst snd] in *. apply in_elsewhere in Hse as (Hs' & Ns & He).
        destruct (ghost_at_cell f32 dim SIZE cells nodes labels npart0 epart VM VS Ls N RO P0 Ps ST s _ e Hs' He) as (k' & Hk' & _ & _ & Hc & _).
        split; [exact Y1|]. split; [exact Y2|]. unfold HH in Y3. rewrite (Hs_rank dim SIZE cells nodes npart0 epart VS Ls P0 Ps r Hr), (Hs_rank dim SIZE cells nodes npart0 epart VS Ls P0 Ps s Hs') in Y3. cbn [brings hk_cell] in Y3. destruct Y3 as (Y3 & Y4). cbn [brings hk_ext] in Y3, Y4.
        unfold ishalo_of, ghalo, gcell. rewrite A. destruct (TA s Hs') as (_ & _ & _ & _ & _ & _ & _ & T5' & _). rewrite T5'. cbn [entry_of g_cell]. split; [exact Y3|]. destruct (halo_row (RO r Hr) _ Y3) as (Er & _). rewrite Er in *. change (nthZ 0 (gh (Lf r) (g_cell x) :: cell cells (gh (Lf r) (g_cell x))) 0) with (gh (Lf r) (g_cell x)) in Y4.
        change (gh (Lf r) (g_cell x) = nthZ (-1) (lo_cell (Lf s)) (ng_cell e)). rewrite Y4. apply nthZ_dflt. rewrite <- (len_cells (RO s Hs')). exact Hc.
      * exists pad, pad'. split; [|rewrite G1; exact G3]. rewrite G2. f_equal. rewrite X2, map_map. apply map_ext_in. intros (s & e) Hse. cbn [fst snd]. apply in_elsewhere in Hse as (Hs' & Ns & He).
        destruct (ghost_at_cell f32 dim SIZE cells nodes labels npart0 epart VM VS Ls N RO P0 Ps ST s _ e Hs' He) as (k' & Hk' & _ & _ & Hc & _ & Ef). rewrite Ef. destruct (TA s Hs') as (_ & _ & _ & _ & _ & T2' & _). rewrite T2'. reflexivity.
    + rewrite T3. rewrite <- (proj2 (ex_numbers _ _ _ _ X)). unfold HH at 1. rewrite (Hs_rank dim SIZE cells nodes npart0 epart VS Ls P0 Ps r Hr). cbn [brings hk_nodes]. unfold where_eq. rewrite flat_map_filter. rewrite (h_nodename_len f32 dim SIZE cells nodes labels epart r _ _ (RO r Hr) _ (ST r Hr)). rewrite GN by exact Hr.
      apply flat_map_ext_in. intros k Hk. apply in_range in Hk. rewrite T1, (proj1 (HG k Hk)). reflexivity.
Qed.
End All.
