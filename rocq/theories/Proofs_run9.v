(** * Proofs_run9: a variable in the loop, with its halo ghosts; what a rank sees of a field. *)
From Coq Require Import Reals Lra Permutation Sorted.
From Verif Require Import Py PyLemmas Model_part Spec_part Model_label Model_conn Spec_conn Proofs_conn1 Proofs_conn2 Model_geom Spec_geom Proofs_geom1 Proofs_geom2 Proofs_geom3
  Model_halo Spec_halo Model_interp Spec_interp Spec_lsq Proofs_lsq Model_fvm Spec_fvm Model_bc Spec_bc Spec_bc3 Proofs_label Proofs_bc Proofs_bc2 Proofs_bc3 Properties_bc3 Model_domain Spec_domain Proofs_domain1 Proofs_domain4
  Model_comm Model_parallel Spec_parallel Proofs_parallel1 Proofs_parallel6 Properties_parallel Model_run Spec_run Proofs_run1 Proofs_run2 Proofs_run3 Proofs_run4 Proofs_run5 Proofs_run6 Spec_run2 Model_run2 Proofs_run7 Proofs_run8.
From Verif Require Proofs_linsys8.
Open Scope Z_scope.

Section Var9.
Context (D : bcdom) (bc : list (loc * bctype)) (vs : list (loc * bcval)).
Hypothesis WF : wf_bcdom D.
Hypothesis HD : hg_distinct D.
Hypothesis ST : bc_settings D bc vs.
Definition vfull (w : list R) (v : variable) : Prop := exists s, inv D vs bc s /\ hinv D vs bc s /\ xinv bc s /\ in_use s w v /\ va_dirichletfaces v = np_sort (dir_faces D bc) /\ va_neumannfaces v = np_sort (neu_faces D bc) /\
  Proofs_linsys8.inv2 D vs bc s /\ va_BCdirichlet v = vs_bcd s.

Lemma full_new : exists v, new_variable D (Some bc) (Some vs) = Ok v /\ vfull (held D []) v.
Proof.
  destruct (built_full D bc vs WF HD ST) as (s & E & I & HI & IX). unfold new_variable. rewrite E. cbn [bind]. eexists. split; [reflexivity|]. exists s. split; [exact I|]. split; [exact HI|]. split; [exact IX|]. split; [exact (built_in_use D vs bc s I _ eq_refl)|].
  cbn [va_dirichletfaces va_neumannfaces va_BCdirichlet]. rewrite (i_dir _ _ _ _ I), (i_neu _ _ _ _ I). split; [reflexivity|]. split; [reflexivity|]. split; [|reflexivity]. pose proof ST as (KN & _ & _ & DF & _).
  exact (Proofs_linsys8.loop2 D WF vs bc [] (init_state D) s (init_inv D vs) (Proofs_linsys8.init_inv2 D vs) (proj1 KN) (proj2 KN) DF E).
Qed.
Lemma full_vinv w v : vfull w v -> vinv D bc vs w v. Proof. intros (s & I & _ & _ & U & _). exists s. split; assumption. Qed.
Lemma full_cell w v : vfull w v -> cell_of v = Ok w. Proof. intros H. apply (vinv_cell D bc vs). apply full_vinv. exact H. Qed.
Lemma full_write w v k x : vfull w v -> 0 <= k < 5 -> zlen x = zlen (nthZ [] (vs_heap (init_state D)) k) -> exists v', write_array v k x = Ok v' /\ vfull (if k =? 0 then x else w) v' /\ va_heap v' = upd (va_heap v) k x.
Proof.
  intros (s & I & HI & IX & (U1 & U2 & U3 & U4) & V1 & V2 & J & V3) Hk HL. destruct (fill_shape D vs bc s I (va_heap v) k x U3 Hk HL) as (E & S'). unfold write_array. rewrite E. cbn [bind]. eexists. split; [reflexivity|]. split; [|reflexivity].
  exists s. split; [exact I|]. split; [exact HI|]. split; [exact IX|]. split; [|split; [exact V1 | split; [exact V2 | split; [exact J | exact V3]]]]. split; [exact U1|]. split; [exact U2|]. split; [exact S'|]. cbn [va_heap]. pose proof (shape_zlen D vs bc s I _ U3) as LZ.
  destruct (Z.eqb_spec k 0) as [->|N]; [apply nthZ_upd_eq; lia | rewrite nthZ_upd_neq by lia; exact U4].
Qed.
Lemma full_ref w v : vfull w v -> va_cell v = 0. Proof. intros (s & I & _ & _ & (U1 & _) & _). exact U1. Qed.
Lemma full_lists w v : vfull w v -> va_dirichletfaces v = np_sort (dir_faces D bc) /\ va_neumannfaces v = np_sort (neu_faces D bc). Proof. intros (s & _ & _ & _ & _ & V1 & V2 & _). split; assumption. Qed.
Lemma full_heap w v : vfull w v -> zlen (va_heap v) = 9. Proof. intros (s & I & _ & _ & (_ & _ & U3 & _) & _). exact (shape_zlen D vs bc s I _ U3). Qed.
Lemma full_update w v : vfull w v -> exists v', update_ghost_value D v = Ok v' /\ vfull w v' /\ nthZ [] (va_heap v') 2 = nthZ [] (va_heap v) 2 /\
  ghosts_updated D bc vs w (nthZ [] (va_heap v) 3) (nthZ [] (va_heap v') 3) /\ haloghosts_updated D bc vs (nthZ [] (va_heap v) 2) (nthZ [] (va_heap v') 4).
Proof.
  intros (s & I & HI & IX & U & V1 & V2 & J & V3). destruct U as (U1 & U2 & U3 & U4). pose proof ST as (KN & CS & CO & DF & NS).
  destruct (update_in_use D WF vs bc s I NS KN CO w v (conj U1 (conj U2 (conj U3 U4)))) as (v' & E & U' & G). exists v'. split; [exact E|]. split; [|split; [|split]].
  - exists s. split; [exact I|]. split; [exact HI|]. split; [exact IX|]. split; [exact U'|]. unfold update_ghost_value in E. apply bind_ok in E as (h' & _ & Ev). injection Ev as <-. cbn [va_dirichletfaces va_neumannfaces va_BCdirichlet]. split; [assumption|]. split; [assumption|]. split; assumption.
  - destruct (update_ok D bc vs WF ST w v) as (v2 & E2 & _ & X & _); [exists s; split; [exact I | split; [exact U1 | split; [exact U2 | split; assumption]]]|]. rewrite E in E2. injection E2 as <-. exact X.
  - exact G.
  - exact (update_halo D WF HD vs bc s I HI IX NS KN CO v v' U2 U3 E).
Qed.
(** the boundary data a linear system finds *)
Lemma full_bord w v : vfull w v -> exists B, Model_linsys.pbord D v = Ok B /\ Spec_linsys.boundary_data D bc vs B.
Proof.
  intros (s & I & _ & _ & (_ & U2 & U3 & _) & _ & _ & J & _). pose proof ST as (KN & _ & CO & _ & _). exact (Proofs_linsys8.pbord_ok D WF vs bc s I J KN CO v U2 U3).
Qed.
Lemma full_labels w v : vfull w v -> forall i, In i (va_BCdirichlet v) <-> exists l, In (l, BDirichlet) bc /\ i = side_label l.
Proof.
  intros (s & _ & _ & _ & _ & _ & _ & J & ->) i. rewrite (Proofs_linsys8.j_bcd _ _ _ _ J), in_flat_map. split.
  - intros ((l & t) & Hin & Hi). cbn [fst snd] in Hi. destruct t; try contradiction. destruct Hi as [<-|[]]. exists l. split; [exact Hin | reflexivity].
  - intros (l & Hin & ->). exists (l, BDirichlet). split; [exact Hin | left; reflexivity].
Qed.
End Var9.

Lemma Permutation_eq_of {A} (l l' : list A) : l = l' -> Permutation l l'. Proof. intros ->. apply Permutation_refl. Qed.
Lemma NoDup_app_parts {A} (a b : list A) : NoDup (a ++ b) -> NoDup a /\ NoDup b.
Proof. induction a as [|x a IH]; cbn [app]; intros H; [split; [apply NoDup_nil | exact H]|]. inversion H as [|? ? N1 N2]; subst. destruct (IH N2) as (A1 & A2). split; [apply NoDup_cons; [intros X; apply N1, in_or_app; left; exact X | exact A1] | exact A2]. Qed.
(** in a concatenation without repetitions each element has one place *)
Lemma NoDup_flat_map_place {A B} (dB : B) (f : A -> list B) l : NoDup (flat_map f l) -> NoDup l -> forall x y i j, In x l -> In y l -> 0 <= i < zlen (f x) -> 0 <= j < zlen (f y) -> nthZ dB (f x) i = nthZ dB (f y) j -> x = y /\ i = j.
Proof.
  induction l as [|a l IH]; intros ND NL x y i j Hx Hy Hi Hj E; [destruct Hx|]. cbn [flat_map] in ND. inversion NL as [|? ? Na NL']; subst.
  assert (ND1 : NoDup (f a)) by (exact (proj1 (NoDup_app_parts _ _ ND))). assert (ND2 : NoDup (flat_map f l)) by (exact (proj2 (NoDup_app_parts _ _ ND))).
  assert (DJ : forall b, In b (f a) -> In b (flat_map f l) -> False). { clear - ND. induction (f a) as [|c r IHr]; intros b H1 H2; [destruct H1|]. cbn [app] in ND. inversion ND as [|? ? N1 N2]; subst. destruct H1 as [->|H1]; [apply N1, in_or_app; right; exact H2 | exact (IHr N2 b H1 H2)]. }
  destruct Hx as [->|Hx], Hy as [->|Hy].
  - split; [reflexivity|]. exact (nthZ_inj_NoDup dB _ i j ND1 Hi Hj E).
  - exfalso. apply (DJ (nthZ dB (f x) i)); [apply nthZ_In; exact Hi|]. rewrite E. apply in_flat_map. exists y. split; [exact Hy | apply nthZ_In; exact Hj].
  - exfalso. apply (DJ (nthZ dB (f y) j)); [apply nthZ_In; exact Hj|]. rewrite <- E. apply in_flat_map. exists x. split; [exact Hx | apply nthZ_In; exact Hi].
  - exact (IH ND2 NL' x y i j Hx Hy Hi Hj E).
Qed.
Lemma Forall2_map_eq {A B C} (f : A -> C) (g : B -> C) l l' : Forall2 (fun a b => f a = g b) l l' -> map f l = map g l'.
Proof. induction 1 as [|a b l l' H _ IH]; [reflexivity|]. cbn [map]. rewrite H, IH. reflexivity. Qed.
Lemma nthZ_Forall2 {A B} (R : A -> B -> Prop) dA dB l l' : zlen l = zlen l' -> (forall i, 0 <= i < zlen l -> R (nthZ dA l i) (nthZ dB l' i)) -> Forall2 R l l'.
Proof.
  revert l'. induction l as [|x l IH]; intros [|y l'] HL H; [apply Forall2_nil | exfalso; rewrite zlen_cons in HL; pose proof (zlen_nonneg l'); change (zlen (@nil A)) with 0 in HL; lia | exfalso; rewrite zlen_cons in HL; pose proof (zlen_nonneg l); change (zlen (@nil B)) with 0 in HL; lia|].
  apply Forall2_cons.
  - exact (H 0 ltac:(rewrite zlen_cons; pose proof (zlen_nonneg l); lia)).
  - apply IH; [rewrite !zlen_cons in HL; lia|]. intros i Hi. specialize (H (i + 1) ltac:(rewrite zlen_cons; lia)). rewrite !nthZ_cons in H by lia. replace (i + 1 - 1) with i in H by lia. exact H.
Qed.
Lemma level_id dim p : (dim = 2 -> pz p = 0%R) -> level dim p = p.
Proof. intros H. unfold level. destruct (Z.eqb_spec dim 2) as [E|]; [|reflexivity]. rewrite <- (H E). destruct p; reflexivity. Qed.

Section All9.
Context (dim SIZE : Z) (cells : list (list Z)) (nodes : list pt) (labels epart : list Z) (Ds : list domain).
Hypothesis VM : valid_mesh dim cells nodes labels.
Hypothesis PL : dim = 2 -> planar nodes.
Hypothesis RP : represents dim SIZE cells nodes labels epart Ds.
Hypothesis SC : star_connected dim cells.
Hypothesis OW : forall c, iscell cells c -> 0 <= owner epart c < SIZE.
Notation Dr := (domain_of Ds).
Hypothesis CS : forall r, 0 <= r < SIZE -> consistent dim (Dr r).
Context (bc : list (loc * bctype)) (vs : list (loc * bcval)).
Hypothesis BV : bc_valid dim bc vs.
Hypothesis CW : corners_whole dim cells labels bc epart.
Notation PAr := (rp_part _ _ _ _ _ _ _ RP).
Notation WFm := (vm_mesh _ _ _ _ VM).

Lemma nodes_len r : 0 <= r < SIZE -> zlen (dm_vertex (Dr r)) = zlen (dm_nodeglob (Dr r)) /\ zlen (dm_old (Dr r)) = zlen (dm_nodeglob (Dr r)) /\ zlen (dm_nodename (Dr r)) = zlen (dm_nodeglob (Dr r)).
Proof.
  intros Hr. destruct (pa_sizes _ _ _ _ _ _ _ (PAr r Hr)) as (_ & _ & _ & _ & _ & _ & S7 & S8). split; [exact S7|]. split; [exact S8|].
  destruct (wn_len _ _ _ _ (proj1 (cs_nodes _ _ (CS r Hr)))) as (_ & L2 & _). cbn [dom_node nd_name nd_vertex] in L2. lia.
Qed.
Lemma row_split r k : 0 <= r < SIZE -> isnode_of (Dr r) k -> (nthZ 0 (dm_nodename (Dr r)) k <> 10 -> haloghosts_of (Dr r) k = []) /\
  forall j, 0 <= j < zlen (nthZ [] (dm_haloghost (Dr r)) k) -> g_last (nthZ gpad (nthZ [] (dm_haloghost (Dr r)) k) j) <> -1 ->
    nthZ 0 (dm_nodename (Dr r)) k = 10 /\ 0 <= j < zlen (haloghosts_of (Dr r) k) /\ nthZ gpad (nthZ [] (dm_haloghost (Dr r)) k) j = nthZ gpad (haloghosts_of (Dr r) k) j.
Proof.
  intros Hr Hk. destruct (rp_ghosts _ _ _ _ _ _ _ RP r Hr) as (R1 & R2 & _). split; [exact (R1 k Hk)|]. intros j Hj Hl.
  assert (HI : In (nthZ gpad (nthZ [] (dm_haloghost (Dr r)) k) j) (haloghosts_of (Dr r) k)) by (unfold haloghosts_of, real_ghosts; apply filter_In; split; [apply nthZ_In; exact Hj | destruct (Z.eqb_spec (g_last (nthZ gpad (nthZ [] (dm_haloghost (Dr r)) k) j)) (-1)); [contradiction | reflexivity]]).
  assert (E10 : nthZ 0 (dm_nodename (Dr r)) k = 10) by (destruct (Z.eq_dec (nthZ 0 (dm_nodename (Dr r)) k) 10) as [|N]; [assumption | rewrite (R1 k Hk N) in HI; destruct HI]).
  split; [exact E10|]. destruct (R2 k Hk E10) as (_ & pad & pad' & _ & ER). set (H := haloghosts_of (Dr r) k) in *.
  assert (EP : real_ghosts pad' = []). { assert (X : real_ghosts (nthZ [] (dm_haloghost (Dr r)) k) = H) by reflexivity. rewrite ER in X. unfold real_ghosts in X. rewrite filter_app in X. assert (XX : filter (fun e => negb (g_last e =? -1)) H = H) by (unfold H, haloghosts_of, real_ghosts; clear; induction (nthZ [] (dm_haloghost (Dr r)) k) as [|e l IH]; [reflexivity|]; cbn [filter]; destruct (negb (g_last e =? -1)) eqn:E; [cbn [filter]; rewrite E, IH; reflexivity | exact IH]). rewrite XX in X. rewrite <- (app_nil_r H) in X at 2. apply app_inv_head in X. exact X. }
  destruct (Z_lt_dec j (zlen H)) as [HJ|NJ]; [split; [lia|]; rewrite ER; apply nthZ_app_l; lia|]. exfalso. rewrite ER in Hl, Hj. rewrite nthZ_app_r in Hl by lia. rewrite zlen_app in Hj.
  assert (X : In (nthZ gpad pad' (j - zlen H)) (real_ghosts pad')) by (unfold real_ghosts; apply filter_In; split; [apply nthZ_In; lia | destruct (Z.eqb_spec (g_last (nthZ gpad pad' (j - zlen H))) (-1)); [contradiction | reflexivity]]). rewrite EP in X. destruct X.
Qed.
Lemma distinct r : 0 <= r < SIZE -> hg_distinct (dom_bc (Dr r)).
Proof.
  intros Hr i j i' j' (I1 & J1 & L1) (I2 & J2 & L2) E. unfold hg_at in *. cbn [dom_bc bd_nbnodes bd_hg] in *. rewrite (proj1 (nodes_len r Hr)) in I1, I2.
  destruct (proj2 (row_split r i Hr I1) j J1 L1) as (N1 & P1 & E1). destruct (proj2 (row_split r i' Hr I2) j' J2 L2) as (N2 & P2 & E2). rewrite E1, E2 in E.
  destruct (rp_ghosts _ _ _ _ _ _ _ RP r Hr) as (_ & _ & R3).
  apply (NoDup_flat_map_place 0 (fun k => if nthZ 0 (dm_nodename (Dr r)) k =? 10 then map g_last (haloghosts_of (Dr r) k) else []) (range (zlen (dm_nodeglob (Dr r)))));
    [rewrite R3; apply NoDup_range | apply NoDup_range | apply in_range; exact I1 | apply in_range; exact I2 | cbv beta; rewrite N1, Z.eqb_refl, zlen_map; exact P1 | cbv beta; rewrite N2, Z.eqb_refl, zlen_map; exact P2|].
  rewrite N1, N2, Z.eqb_refl. rewrite !(nthZ_map _ gpad) by assumption. exact E.
Qed.
(** the value beyond a boundary facet, by the type of its side *)
Lemma boundary_cases F x : 1 <= face_label (priority dim) (map (nthZ 0 labels) F) <= 2 * dim -> exists l, side_label l = face_label (priority dim) (map (nthZ 0 labels) F) /\
  (In (l, BNeumann) bc /\ boundary_value dim nodes labels bc vs F x = x \/ In (l, BDirichlet) bc /\ boundary_value dim nodes labels bc vs F x = prescribed_at vs l (facet_centre nodes F)).
Proof.
  intros HL. destruct BV as (ND & TY & CO & DF & VL). destruct (side_of_label dim _ (wm_dim _ _ _ WFm) HL) as (l0 & Hl0 & El0). unfold boundary_value. destruct (find _ bc) as [(l, t)|] eqn:EF.
  - apply find_some in EF as (HI & HE). cbn [fst] in HE. apply Z.eqb_eq in HE. exists l. split; [exact HE|]. destruct (TY l t HI) as (_ & [-> | ->]); [right | left]; (split; [exact HI|]); [|reflexivity].
    unfold prescribed_at, facet_centre. destruct (lookup vs l) as [[g|y|]|]; reflexivity.
  - exfalso. specialize (CO l0 Hl0). apply in_map_iff in CO as ((l1, t1) & E1 & HI). cbn [fst] in E1. subst l1. pose proof (find_none _ _ EF _ HI) as X0. cbv beta in X0. cbn [fst] in X0. lia.
Qed.

(** what rank r sees of the field X *)
Record sees (r : Z) (X : Z -> R) (W : values) : Prop := {
  se_wf : wf_values W (zlen (dm_center (Dr r))) (zlen (dm_cellid (Dr r))) (zlen (dm_centerh (Dr r))) (dm_nhg (Dr r));
  se_cell : forall c, iscell_of (Dr r) c -> nthZ 0%R (w_c W) c = X (gcell (Dr r) c);
  se_halo : forall h, ishalo_of (Dr r) h -> nthZ 0%R (w_halo W) h = X (ghalo (Dr r) h);
  se_ghost : forall f c, only_cell dim cells c (fset (Dr r) f) -> isface (Dr r) f -> gcell (Dr r) (left_of (Dr r) f) = c -> nthZ 0%R (w_ghost W) f = boundary_value dim nodes labels bc vs (fset (Dr r) f) (X c);
  se_haloghost : forall k, isnode_of (Dr r) k -> nthZ 0 (dm_nodename (Dr r)) k = 10 ->
     Forall2 (fun se e => nthZ 0%R (w_haloghost W) (g_last e) = snd (mirrored dim cells nodes labels bc vs X (key2 Ds se))) (others_at_node SIZE Ds r (gnode (Dr r) k)) (haloghosts_of (Dr r) k) }.
Lemma haloghost_values r X h g : 0 <= r < SIZE -> (forall i, ishalo_of (Dr r) i -> nthZ 0%R h i = X (ghalo (Dr r) i)) -> haloghosts_updated (dom_bc (Dr r)) bc vs h g ->
  forall k, isnode_of (Dr r) k -> nthZ 0 (dm_nodename (Dr r)) k = 10 ->
     Forall2 (fun se e => nthZ 0%R g (g_last e) = snd (mirrored dim cells nodes labels bc vs X (key2 Ds se))) (others_at_node SIZE Ds r (gnode (Dr r) k)) (haloghosts_of (Dr r) k).
Proof.
  intros Hr HX (_ & HU) k Hk E10. destruct (rp_ghosts _ _ _ _ _ _ _ RP r Hr) as (_ & R2 & _). destruct (R2 k Hk E10) as (FA & pad & pad' & EI & ER). cbv zeta in FA, EI. clear R2. set (L := others_at_node SIZE Ds r (gnode (Dr r) k)) in *.
  destruct (Forall2_nthZ _ (0, gpad) gpad _ _ FA) as (LL & FN). apply (nthZ_Forall2 _ (0, gpad) gpad _ _ LL). intros j Hj. specialize (FN j Hj). destruct FN as (F1 & F2 & F3 & F4). set (se := nthZ (0, gpad) L j) in *. set (e := nthZ gpad (haloghosts_of (Dr r) k) j) in *.
  assert (Hse : In se L) by (apply nthZ_In; exact Hj). destruct (other_facts dim SIZE cells nodes labels epart Ds VM PL RP r k se Hr Hk Hse) as (S1 & S2 & k' & K1 & K2 & GF). destruct GF as (G1 & G2 & G3 & G4 & G5 & G6 & G7 & G8 & G9).
  assert (He : In e (haloghosts_of (Dr r) k)) by (apply nthZ_In; lia). unfold haloghosts_of, real_ghosts in He. apply filter_In in He as (He & Hlast). assert (NL : g_last e <> -1) by (destruct (Z.eqb_spec (g_last e) (-1)); [discriminate Hlast | assumption]).
  assert (LH : zlen (haloghosts_of (Dr r) k) <= zlen (nthZ [] (dm_haloghost (Dr r)) k)) by (rewrite ER, zlen_app; pose proof (zlen_nonneg pad'); lia).
  assert (EA : hg_at (dom_bc (Dr r)) k j = e). { unfold hg_at. cbn [dom_bc bd_hg]. rewrite ER. unfold e. apply nthZ_app_l. lia. }
  assert (HP : hg_pos (dom_bc (Dr r)) k j). { unfold hg_pos. rewrite EA. cbn [dom_bc bd_nbnodes bd_hg]. rewrite (proj1 (nodes_len r Hr)). split; [exact Hk|]. split; [lia | exact NL]. }
  assert (HN : In k (bd_halonodes (dom_bc (Dr r)))). { cbn [dom_bc bd_halonodes]. apply In_where. rewrite (proj2 (proj2 (nodes_len r Hr))). split; [exact Hk | exact E10]. }
  assert (EF : hg_face (dom_bc (Dr r)) k j = facet_centre nodes (fset (Dr (fst se)) (g_last (snd se)))). { unfold hg_face. cbn [dom_bc bd_hginfo]. rewrite EI, nthZ_app_l by (rewrite zlen_map; lia). rewrite (nthZ_map _ (0, gpad)) by lia. exact G9. }
  pose proof (proj2 (proj2 (boundary_face dim cells nodes labels epart (fst se) (Dr (fst se)) VM (PAr _ S1) (g_last (snd se)) G1 G2))) as BL. rewrite BL in G2.
  destruct (boundary_cases (fset (Dr (fst se)) (g_last (snd se))) (X (gcell (Dr (fst se)) (g_cell (snd se)))) G2) as (l & El & CASE). unfold mirrored, key2, key. cbn [fst snd]. rewrite <- EA.
  destruct (HU k j l HN HP ltac:(rewrite EA, F2, G8; symmetry; exact El)) as (UN & UD). destruct CASE as [(Hin & ->)|(Hin & ->)].
  - rewrite (UN Hin), EA, (HX _ F3), F4. reflexivity.
  - destruct (UD Hin) as (U1 & _). rewrite (U1 l Hin), EF; [reflexivity|]. cbn [dom_bc bd_oldname]. rewrite (proj2 (pa_node _ _ _ _ _ _ _ (PAr r Hr) k Hk)).
    destruct (node_cell dim SIZE cells nodes labels epart Ds RP r k Hr Hk) as (c' & Hc' & Oc' & Hg'). destruct (gcell_owned dim cells nodes labels epart (fst se) (Dr (fst se)) (PAr _ S1) _ G4) as (GC1 & GC2). rewrite K2 in G3.
    apply (CW (gnode (Dr r) k) c' (gcell (Dr (fst se)) (g_cell (snd se))) (gcell (Dr (fst se)) (g_cell (snd se))) (fset (Dr (fst se)) (g_last (snd se))) l Hc' GC1 Hg'); [apply (proj1 G6); exact G3 | rewrite Oc', GC2; intros X0; exact (S2 (eq_sym X0)) | apply (in_boundary dim cells nodes labels VM); exact G6 | exact G3 | exact Hin | exact El].
Qed.

(** the boundary facets at a node, as the rank sees them *)
Definition gpart (W : values) (e : gentry) : pt * R := level1 dim (g_pt e, nthZ 0%R (w_ghost W) (g_last e)).
Definition hpart (W : values) (e : gentry) : pt * R := level1 dim (g_pt e, nthZ 0%R (w_haloghost W) (g_last e)).
Lemma node_boundary r X W k : 0 <= r < SIZE -> sees r X W -> isnode_of (Dr r) k ->
  Permutation (map (gpart W) (ghosts_of (Dr r) k) ++ map (hpart W) (haloghosts_of (Dr r) k)) (map (mirrored dim cells nodes labels bc vs X) (boundary_at cells (gnode (Dr r) k))).
Proof.
  intros Hr SE Hk. eapply Permutation_trans; [|apply Permutation_map; apply (filter_split (fun p => owner epart (fst p) =? r))]. rewrite map_app. apply Permutation_app.
  - eapply Permutation_trans; [|apply Permutation_map; apply (own_boundary dim cells nodes labels epart r (Dr r) VM PL (PAr r Hr) k Hk)]. rewrite map_map. apply Permutation_eq_of. apply map_ext_in. intros e He.
    destruct (own_ghost dim cells nodes labels epart r (Dr r) VM PL (PAr r Hr) k e Hk He) as (G1 & G2 & G3 & G4 & G5 & G6 & G7 & G8 & G9). unfold gpart, level1, mirrored, key. cbn [fst snd]. rewrite G7. f_equal. apply (se_ghost _ _ _ SE _ _ G6 G1). rewrite <- G5. reflexivity.
  - destruct (Z.eq_dec (nthZ 0 (dm_nodename (Dr r)) k) 10) as [E10|N10].
    + eapply Permutation_trans; [|apply Permutation_map; apply (halo_boundary dim SIZE cells nodes labels epart Ds VM PL RP SC OW r k Hr Hk)]. rewrite map_map. apply Permutation_eq_of. symmetry. apply Forall2_map_eq.
      destruct (rp_ghosts _ _ _ _ _ _ _ RP r Hr) as (_ & R2 & _). destruct (R2 k Hk E10) as (FA & _). cbv zeta in FA. pose proof (se_haloghost _ _ _ SE k Hk E10) as FB.
      destruct (Forall2_nthZ _ (0, gpad) gpad _ _ FA) as (LL & FN). destruct (Forall2_nthZ _ (0, gpad) gpad _ _ FB) as (_ & FM). apply (nthZ_Forall2 _ (0, gpad) gpad _ _ LL). intros j Hj. specialize (FN j Hj). specialize (FM j Hj). cbv beta in FN, FM. destruct FN as (F1 & _).
      set (se := nthZ (0, gpad) (others_at_node SIZE Ds r (gnode (Dr r) k)) j) in *. assert (Hse : In se (others_at_node SIZE Ds r (gnode (Dr r) k))) by (apply nthZ_In; exact Hj). destruct (other_facts dim SIZE cells nodes labels epart Ds VM PL RP r k se Hr Hk Hse) as (S1 & S2 & k' & K1 & K2 & GF). destruct GF as (G1 & G2 & G3 & G4 & G5 & G6 & G7 & G8 & G9).
      unfold hpart, level1. cbn [fst snd]. rewrite F1, G7, FM. unfold mirrored, key2, key. reflexivity.
    + rewrite (proj1 (row_split r k Hr Hk) N10). cbn [map]. replace (filter _ _) with (@nil (Z * list Z)); [apply Permutation_refl|]. symmetry.
      destruct (filter (fun p => negb (owner epart (fst p) =? r)) (boundary_at cells (gnode (Dr r) k))) as [|(c, F) l] eqn:EF; [reflexivity|]. exfalso. assert (X0 : In (c, F) (filter (fun p => negb (owner epart (fst p) =? r)) (boundary_at cells (gnode (Dr r) k)))) by (rewrite EF; left; reflexivity).
      apply filter_In in X0 as (X1 & X2). cbn [fst] in X2. apply (in_boundary_at dim cells nodes labels VM) in X1 as (X1 & X3). apply N10. apply (shared_cut dim SIZE cells nodes labels epart Ds RP SC r k c Hr Hk (proj1 (proj1 X1)) (proj2 (proj2 (proj2 (proj1 X1))) _ X3)). destruct (Z.eqb_spec (owner epart c) r); [discriminate X2 | assumption].
Qed.
Lemma label_small r k : 0 <= r < SIZE -> isnode_of (Dr r) k -> 0 <= nthZ 0 (dm_old (Dr r)) k <= 2 * dim.
Proof.
  intros Hr Hk. rewrite (proj2 (pa_node _ _ _ _ _ _ _ (PAr r Hr) k Hk)). destruct (vm_labels _ _ _ _ VM) as (L1 & L2). destruct (node_cell dim SIZE cells nodes labels epart Ds RP r k Hr Hk) as (c & Hc & _ & Hg). apply L2, nthZ_In. rewrite L1. apply (proj2 (proj2 (wm_rows _ _ _ WFm (cell cells c) ltac:(apply nthZ_In; exact Hc)))). exact Hg.
Qed.
Lemma own_sample r X W c : 0 <= r < SIZE -> sees r X W -> iscell_of (Dr r) c -> level1 dim (nthZ vzero (dm_center (Dr r)) c, nthZ 0%R (w_c W) c) = sample dim cells nodes X (gcell (Dr r) c).
Proof. intros Hr SE Hc. unfold level1, sample. cbn [fst snd]. rewrite (se_cell _ _ _ SE c Hc), (proj1 (proj2 (pa_cell _ _ _ _ _ _ _ (PAr r Hr) c Hc))). f_equal. apply level_id. intros E. exact (centre_level dim cells nodes _ E). Qed.
Lemma halo_sample r X W h : 0 <= r < SIZE -> sees r X W -> ishalo_of (Dr r) h -> level1 dim (nthZ vzero (dm_centerh (Dr r)) h, nthZ 0%R (w_halo W) h) = sample dim cells nodes X (ghalo (Dr r) h).
Proof. intros Hr SE Hh. unfold level1, sample. cbn [fst snd]. rewrite (se_halo _ _ _ SE h Hh), (proj2 (proj2 (pa_halos _ _ _ _ _ _ _ (PAr r Hr))) h Hh). f_equal. apply level_id. intros E. exact (centre_level dim cells nodes _ E). Qed.

Lemma node_data r X W k : 0 <= r < SIZE -> sees r X W -> isnode_of (Dr r) k ->
  Permutation (map (fun q => level1 dim (fst q, value_at W (snd q))) (stencil dim (dom_node (Dr r)) k)) (around_node dim cells nodes labels bc vs X (gnode (Dr r) k)).
Proof.
  intros Hr SE Hk. pose proof (label_small r k Hr Hk) as LS. pose proof (wm_dim _ _ _ WFm) as Hd. unfold stencil. cbn [dom_node nd_old nd_centerc nd_cellid nd_ghost nd_name nd_haloghost nd_centerh nd_haloid].
  replace (is_periodic dim (nthZ 0 (dm_old (Dr r)) k)) with false by (unfold is_periodic, is_x, is_y, is_z; lia). rewrite app_nil_l, !map_app, !map_map. cbn [fst snd value_at].
  set (A := map _ (counted (nthZ [] (dm_nodecell (Dr r)) k))). set (B := map _ (real_ghosts (nthZ [] (dm_nodeghost (Dr r)) k))).
  assert (HA : Permutation A (map (sample dim cells nodes X) (filter (fun c => owner epart c =? r) (touching cells (gnode (Dr r) k))))).
  { eapply Permutation_trans; [|apply Permutation_map; apply (own_touching dim cells nodes labels epart r (Dr r) (PAr r Hr) k Hk)]. rewrite map_map. apply Permutation_eq_of. apply map_ext_in. intros c Hc. apply (pa_node_cells _ _ _ _ _ _ _ (PAr r Hr) k Hk) in Hc as (Hc & _). exact (own_sample r X W c Hr SE Hc). }
  assert (HB : Permutation (B ++ map (hpart W) (haloghosts_of (Dr r) k)) (map (mirrored dim cells nodes labels bc vs X) (boundary_at cells (gnode (Dr r) k)))) by exact (node_boundary r X W k Hr SE Hk).
  assert (HC : Permutation (map (fun h => level1 dim (nthZ vzero (dm_centerh (Dr r)) h, nthZ 0%R (w_halo W) h)) (counted (nthZ [] (dm_nodehalo (Dr r)) k))) (map (sample dim cells nodes X) (filter (fun c => negb (owner epart c =? r)) (touching cells (gnode (Dr r) k))))).
  { eapply Permutation_trans; [|apply Permutation_map; apply (halo_touching dim SIZE cells nodes labels epart Ds RP SC r k Hr Hk)]. rewrite map_map. apply Permutation_eq_of. apply map_ext_in. intros h Hh. apply (pa_node_halos _ _ _ _ _ _ _ (PAr r Hr) k Hk) in Hh as (_ & Hh & _). exact (halo_sample r X W h Hr SE Hh). }
  assert (HX : map (fun q => level1 dim (fst q, value_at W (snd q))) (if nthZ 0 (dm_nodename (Dr r)) k =? 10 then map (fun e => (g_pt e, Shaloghost (g_last e))) (real_ghosts (nthZ [] (dm_haloghost (Dr r)) k)) ++ map (fun h => (nthZ vzero (dm_centerh (Dr r)) h, Shalo h)) (counted (nthZ [] (dm_nodehalo (Dr r)) k)) else []) =
    map (hpart W) (haloghosts_of (Dr r) k) ++ map (fun h => level1 dim (nthZ vzero (dm_centerh (Dr r)) h, nthZ 0%R (w_halo W) h)) (counted (nthZ [] (dm_nodehalo (Dr r)) k))).
  { destruct (Z.eqb_spec (nthZ 0 (dm_nodename (Dr r)) k) 10) as [E10|N10]; [rewrite map_app, !map_map; reflexivity|]. rewrite (proj1 (row_split r k Hr Hk) N10). cbn [map app]. destruct (counted (nthZ [] (dm_nodehalo (Dr r)) k)) as [|h l] eqn:EC; [reflexivity|]. exfalso. apply N10. apply (pa_node_halos _ _ _ _ _ _ _ (PAr r Hr) k Hk h). rewrite EC. left. reflexivity. }
  rewrite HX. clear HX. unfold around_node. set (Cc := map _ (counted (nthZ [] (dm_nodehalo (Dr r)) k))) in *. set (H := map (hpart W) (haloghosts_of (Dr r) k)) in *.
  eapply Permutation_trans with ((A ++ Cc) ++ (B ++ H)); [rewrite <- app_assoc; apply Permutation_app_head; rewrite (app_assoc B); apply Permutation_app_comm|]. apply Permutation_app; [|exact HB].
  eapply Permutation_trans; [apply Permutation_app; [exact HA | exact HC]|]. rewrite <- map_app. apply Permutation_map. apply (filter_split (fun c => owner epart c =? r)).
Qed.
End All9.
