(** * Properties_parallel: C68, the set-up of a parallel run.
    Vocabulary: [Spec_parallel]. *)
From Coq Require Import Reals Lra Permutation Sorted.
From Verif Require Import Py PyLemmas Model_part Spec_part Properties_part Model_label Model_conn Spec_conn Proofs_conn1 Proofs_conn2 Model_geom Spec_geom Proofs_geom3 Properties_geom
  Model_halo Spec_halo Model_interp Spec_interp Model_comm Model_domain Spec_domain Proofs_domain1 Proofs_domain4 Examples_domain Model_parallel Spec_parallel Proofs_parallel1 Proofs_parallel2 Proofs_parallel6.
Open Scope Z_scope.

(** C68.  For every mesh and every distribution of its cells to ranks, partitioning, writing and reading the files and constructing the domains
    succeeds on all the ranks.  The domains together represent the mesh, the tables of each are what the rest of the code needs, and with several
    ranks the communication tables deliver to every halo cell the value its owner holds. *)
Theorem C68_parallel_setup : forall f32 dim SIZE cells nodes labels npart0 epart,
  valid_mesh dim cells nodes labels -> valid_split dim SIZE cells nodes npart0 epart ->
  exists st, setup f32 dim SIZE cells nodes labels npart0 epart = Ok st /\
    represents dim SIZE cells nodes labels epart (se_domains st) /\
    (forall r, 0 <= r < SIZE -> consistent dim (domain_of (se_domains st) r)) /\
    (1 < SIZE -> forall (V : Type) (d : V) (X : Z -> V) (w : list (list V)), values_of d SIZE (se_domains st) X w ->
       exists halo, update_halo_value SIZE (se_comms st) w = Ok halo /\ halo_values_of d SIZE (se_domains st) X halo).
Proof.
  intros f32 dim SIZE cells nodes labels npart0 epart VM VS. pose proof (vs_size _ _ _ _ _ _ VS) as HS. unfold setup. destruct (Z.eq_dec SIZE 1) as [E1|N1].
  - destruct (read_alone dim SIZE cells nodes labels npart0 epart VM VS E1) as (md & L & Er & Eu & RO). rewrite Er. cbn [bind mapM]. rewrite Eu. cbn [bind]. replace (SIZE =? 1) with true by lia. cbn [bind].
    destruct (build_all_ok f32 dim SIZE cells nodes labels npart0 epart VM VS [L] (fun _ => range (zlen nodes))) as (Ds & ED & RP & HC).
    + rewrite E1. reflexivity.
    + intros r Hr. assert (r = 0) as -> by lia. exact RO.
    + rewrite ED. cbn [bind]. eexists. split; [reflexivity|]. cbn [se_domains se_comms]. split; [exact RP|]. split; [intros r Hr; apply HC; exact Hr | intros; lia].
  - assert (H1 : 1 < SIZE) by lia. destruct (read_several dim SIZE cells nodes labels npart0 epart VM VS H1) as (pa & mds & Ls & Epa & Er & Eu & LL & EC & RO). rewrite Er. cbn [bind]. rewrite Eu. cbn [bind]. replace (SIZE =? 1) with false by lia. rewrite EC.
    destruct (build_all_ok f32 dim SIZE cells nodes labels npart0 epart VM VS Ls (fun r => rf_nodeloctoglob (file_of empty_file pa r))) as (Ds & ED & RP & HC); [exact LL | intros r Hr; apply (RO r Hr)|].
    pose proof (input_ok dim SIZE cells nodes labels npart0 epart VM VS H1) as WI. destruct (vs_several _ _ _ _ _ _ VS H1) as (LN & MC & _).
    assert (C42 := fun V d w => C42_halo_exchange_delivers_owner_values V d dim SIZE cells nodes labels npart0 epart pa w WI MC Epa). cbv zeta in C42.
    destruct (C42 Z 0 (map (fun r => zeros_like 0 (zlen (rf_loctoglob (file_of empty_file pa r)))) (range SIZE))) as (comms & _ & Ecomm & _).
    { rewrite zlen_map, zlen_range; lia. }
    { intros r Hr. rewrite (nthZ_map _ 0) by (rewrite zlen_range; lia). rewrite nthZ_range by exact Hr. apply zlen_zeros_like. apply zlen_nonneg. }
    rewrite Ecomm. cbn [bind]. rewrite ED. cbn [bind]. eexists. split; [reflexivity|]. cbn [se_domains se_comms]. split; [exact RP|]. split; [intros r Hr; apply HC; exact Hr|].
    assert (TE : forall r, 0 <= r < SIZE -> dm_hext (domain_of Ds r) = rf_halosext (file_of empty_file pa r) /\ dm_loctoglob (domain_of Ds r) = rf_loctoglob (file_of empty_file pa r)).
    { intros r Hr. destruct (HC r Hr) as (_ & A & B). destruct (RO r Hr) as (_ & A' & B'). rewrite A, B. split; [exact A' | exact B']. }
    intros _ V d X w (LW & HW). destruct (C42 V d w LW) as (comms' & halo & Ec' & Eh & LH & HH). { intros r Hr. rewrite <- (proj2 (TE r Hr)). apply (HW r Hr). }
    rewrite Ecomm in Ec'. injection Ec' as <-. exists halo. split; [exact Eh|]. split; [exact LH|]. intros r Hr. destruct (HH r Hr) as (A & B). destruct (TE r Hr) as (T1 & T2). rewrite T1. split; [exact A|].
    intros h Hh. unfold ishalo_of in Hh. rewrite T1 in Hh. destruct (B h Hh) as (o & l & Ho & No & Hl & El & Ev). rewrite Ev. destruct (TE o Ho) as (T1' & T2'). destruct (HW o Ho) as (_ & HW').
    rewrite (HW' l) by (unfold iscell_of; rewrite T2'; exact Hl). f_equal. unfold gcell. rewrite T2', El. unfold ghalo. rewrite T1. destruct (nthZ [] (rf_halosext (file_of empty_file pa r)) h); reflexivity.
Qed.
Print Assumptions C68_parallel_setup.

(** ** What the represented mesh gives *)
Section Mesh.
Context (dim SIZE : Z) (cells : list (list Z)) (nodes : list pt) (labels epart : list Z) (Ds : list domain).
Hypothesis RP : represents dim SIZE cells nodes labels epart Ds.
Let part r Hr := rp_part _ _ _ _ _ _ _ RP r Hr.
Lemma side_area F x p : (zlen F = 2 \/ zlen F = 3) -> In p F -> exists k : R, (0 < k)%R /\ side nodes F x = (k * vdot (area_vector nodes F) (vsub x (at_node nodes p)))%R.
Proof.
  intros [HL|HL] Hp.
  - destruct (list2 F HL) as (a & b & ->). unfold side, area_vector. cbn [map]. exists 1%R. split; [lra|]. destruct Hp as [<-|[<-|[]]]; unfold turn, vdot, vsub; cbn [px py pz]; ring.
  - destruct (list3 F HL) as (a & b & c & ->). unfold side, area_vector. cbn [map]. exists 2%R. split; [lra|]. destruct Hp as [<-|[<-|[<-|[]]]]; unfold det4, det, vdot, vsub, vscal; cbn [px py pz]; field.
Qed.
Lemma outward_opposite a b F w w' : wf_mesh dim (zlen nodes) cells -> proper dim nodes cells -> has_facet dim cells a F -> has_facet dim cells b F -> a <> b ->
  outward_of nodes (cell cells a) F w -> outward_of nodes (cell cells b) F w' -> w' = vscal (-1) w.
Proof.
  intros WF PR Ha Hb N (W & O) (W' & O'). pose proof (wm_dim _ _ _ WF) as Hd. pose proof (proj1 (proj2 (proj2 Ha))) as HL.
  destruct (opposite_node dim cells nodes WF a F Ha) as (x & _ & Ix & Nx). destruct (opposite_node dim cells nodes WF b F Hb) as (y & _ & Iy & Ny). pose proof (PR F a b x y Ha Hb N Ix Nx Iy Ny) as S.
  assert (HP : exists p, In p F) by (destruct F as [|p F]; [cbn in HL; lia | exists p; left; reflexivity]). destruct HP as (p & Hp).
  assert (HL' : zlen F = 2 \/ zlen F = 3) by lia. destruct (side_area F (at_node nodes x) p HL' Hp) as (k & Hk & Ek). destruct (side_area F (at_node nodes y) p HL' Hp) as (k' & Hk' & Ek'). rewrite Ek, Ek' in S.
  pose proof (O x p Ix Nx Hp) as O1. pose proof (O' y p Iy Ny Hp) as O2. set (v := area_vector nodes F) in *. set (X := vsub (at_node nodes x) (at_node nodes p)) in *. set (Y := vsub (at_node nodes y) (at_node nodes p)) in *.
  assert (VS : forall u z, vdot (vscal (-1) u) z = (- vdot u z)%R) by (intros u z; unfold vdot, vscal; cbn [px py pz]; ring). assert (VV : vscal (-1) (vscal (-1) v) = v) by (clear; destruct v as [v1 v2 v3]; unfold vscal; cbn [px py pz]; f_equal; ring).
  destruct W as [-> | ->], W' as [-> | ->]; try reflexivity; [|symmetry; exact VV|]; exfalso; rewrite ?VS in O1, O2; clear - S Hk Hk' O1 O2; set (s := vdot v X) in *; set (t := vdot v Y) in *.
  - assert (0 < (k * s) * (k' * t))%R; [|lra]. replace ((k * s) * (k' * t))%R with ((k * k') * ((- s) * (- t)))%R by ring. apply Rmult_lt_0_compat; apply Rmult_lt_0_compat; lra.
  - assert (0 < (k * s) * (k' * t))%R; [|lra]. apply Rmult_lt_0_compat; apply Rmult_lt_0_compat; lra.
Qed.
End Mesh.

(** C68, continued.  A facet between two ranks is a face of both domains: each has the cell of the other as its halo cell, the normals are opposite,
    measure and centre are the same. *)
Theorem C68_twin_faces : forall dim SIZE cells nodes labels epart Ds, valid_mesh dim cells nodes labels -> represents dim SIZE cells nodes labels epart Ds ->
  (forall c, iscell cells c -> 0 <= owner epart c < SIZE) ->
  forall r f F, 0 <= r < SIZE -> gface (domain_of Ds r) f F -> StronglySorted Z.lt F -> nthZ 0 (dm_name (domain_of Ds r)) f = 10 ->
  let D := domain_of Ds r in let c := ghalo D (nthZ 0 (dm_halofid D) f) in let s := owner epart c in let D' := domain_of Ds s in
  s <> r /\ 0 <= s < SIZE /\ exists f', gface D' f' F /\ (forall f'', gface D' f'' F -> f'' = f') /\ nthZ 0 (dm_name D') f' = 10 /\
    gcell D' (left_of D' f') = c /\ ghalo D' (nthZ 0 (dm_halofid D') f') = gcell D (left_of D f) /\
    nthZ vzero (dm_normal D') f' = vscal (-1) (nthZ vzero (dm_normal D) f) /\ nthZ 0%R (dm_mesure D') f' = nthZ 0%R (dm_mesure D) f /\ nthZ vzero (dm_fcenter D') f' = nthZ vzero (dm_fcenter D) f.
Proof.
  intros dim SIZE cells nodes labels epart Ds VM RP OW r f F Hr HG HSo Hn D c s D'. pose proof (rp_part _ _ _ _ _ _ _ RP r Hr) as PA. fold D in PA, HG, Hn.
  assert (HF : exists c0, has_facet dim cells c0 F).
  { destruct (pa_faces _ _ _ _ _ _ _ PA f (proj1 HG)) as (c0 & F0 & H0 & _ & HG0). exists c0. replace F with F0; [exact H0|]. apply sorted_unique; [exact (proj1 (proj2 H0)) | exact HSo|]. eapply Permutation_trans; [apply Permutation_sym; exact (proj2 HG0) | exact (proj2 HG)]. }
  destruct HF as (c0 & HF). destruct (pa_kinds _ _ _ _ _ _ _ PA f c0 F HF HG) as [a b _ _ _ _ _ name | a _ _ _ _ label | a Ha Hh other sides row _]; [lia | pose proof (wm_dim _ _ _ (vm_mesh _ _ _ _ VM)); lia|]. fold c in other, sides.
  assert (Hc : has_facet dim cells c F) by (apply sides; right; reflexivity). assert (Haf : has_facet dim cells (gcell D a) F) by (apply sides; left; reflexivity).
  pose proof (OW c (proj1 Hc)) as Hs. fold s in Hs, other. split; [exact other|]. split; [exact Hs|]. pose proof (rp_part _ _ _ _ _ _ _ RP s Hs) as PB. fold D' in PB.
  assert (OA : owner epart (gcell D a) = r). { assert (HI : In (gcell D a) (owned cells epart r)) by (rewrite <- (pa_cells _ _ _ _ _ _ _ PA); apply nthZ_In; exact Ha). unfold owned in HI. apply filter_In in HI as (_ & X). lia. }
  destruct (pa_facets _ _ _ _ _ _ _ PB c F Hc eq_refl) as (f' & HG' & HU). exists f'. split; [exact HG'|]. split; [exact HU|]. change (s <> r) in other.
  destruct (pa_kinds _ _ _ _ _ _ _ PB f' c F Hc HG') as [a' b' Ca Cb two sides' _ _ | a' Ca one _ _ _ | a' Ca Hh' other' sides' row' name'].
  - exfalso. assert (OB : forall z, iscell_of D' z -> owner epart (gcell D' z) = s). { intros z Hz. assert (HI : In (gcell D' z) (owned cells epart s)) by (rewrite <- (pa_cells _ _ _ _ _ _ _ PB); apply nthZ_In; exact Hz). unfold owned in HI. apply filter_In in HI as (_ & X). lia. }
    apply sides' in Haf as [X | X]; [pose proof (OB a' Ca) | pose proof (OB b' Cb)]; rewrite <- X in *; congruence.
  - exfalso. destruct one as (_ & one). pose proof (one _ Hc) as X1. pose proof (one _ Haf) as X2. apply other. unfold s. rewrite X1, <- X2. exact OA.
  - assert (OB : owner epart (gcell D' a') = s). { assert (HI : In (gcell D' a') (owned cells epart s)) by (rewrite <- (pa_cells _ _ _ _ _ _ _ PB); apply nthZ_In; exact Ca). unfold owned in HI. apply filter_In in HI as (_ & X). lia. }
    split; [exact name'|]. assert (EL : left_of D f = a) by (unfold left_of; rewrite row; reflexivity). assert (EL' : left_of D' f' = a') by (unfold left_of; rewrite row'; reflexivity). rewrite EL, EL'.
    assert (E1 : gcell D' a' = c). { assert (X : has_facet dim cells (gcell D' a') F) by (apply sides'; left; reflexivity). apply sides in X as [X|X]; [|exact X]. exfalso. apply other. rewrite <- OB, X. exact OA. }
    assert (E2 : ghalo D' (nthZ 0 (dm_halofid D') f') = gcell D a). { assert (X : has_facet dim cells (ghalo D' (nthZ 0 (dm_halofid D') f')) F) by (apply sides'; right; reflexivity). apply sides in X as [X|X]; [exact X|]. exfalso. apply other'. rewrite X. reflexivity. }
    split; [exact E1|]. split; [exact E2|]. destruct (pa_geometry _ _ _ _ _ _ _ PA f F HG) as (G1 & G2 & G3). destruct (pa_geometry _ _ _ _ _ _ _ PB f' F HG') as (G1' & G2' & G3'). fold D in G1. rewrite EL in G1. rewrite EL', E1 in G1'.
    assert (EN : nthZ vzero (dm_normal D') f' = vscal (-1) (nthZ vzero (dm_normal D) f)).
    { apply (outward_opposite dim cells nodes (gcell D a) c F _ _ (vm_mesh _ _ _ _ VM) (vm_proper _ _ _ _ VM) Haf Hc); [intros X; apply other; unfold s; rewrite <- X; exact OA | exact G1 | exact G1']. }
    split; [exact EN|]. split; [|rewrite G3, G3'; reflexivity]. rewrite G2, G2', EN. unfold vlen, vscal, vdot. cbn [px py pz]. f_equal. ring.
Qed.
Print Assumptions C68_twin_faces.

(** C68, continued.  If the cells around each node are connected through facets, a rank sees all of them at each of its nodes: those it owns as
    cells, the others as halo cells. *)
Lemma around_cut dim cells epart g a b : around dim cells g a b -> owner epart a <> owner epart b -> cut_at dim cells epart (owner epart a) g.
Proof.
  induction 1 as [c|a b c F Ha Hb Hg Hbc IH]; intros N; [contradiction N; reflexivity|]. destruct (Z.eq_dec (owner epart b) (owner epart a)) as [E|NE].
  - rewrite <- E. apply IH. congruence.
  - exists a, b, F. auto 6.
Qed.
Theorem C68_whole_stencil : forall dim SIZE cells nodes labels epart Ds, represents dim SIZE cells nodes labels epart Ds -> star_connected dim cells ->
  forall r k c, 0 <= r < SIZE -> let D := domain_of Ds r in isnode_of D k -> iscell cells c -> In (gnode D k) (cell cells c) ->
  (owner epart c = r /\ exists l, In l (counted (nthZ [] (dm_nodecell D) k)) /\ gcell D l = c) \/
  (owner epart c <> r /\ exists h, In h (counted (nthZ [] (dm_nodehalo D) k)) /\ ghalo D h = c).
Proof.
  intros dim SIZE cells nodes labels epart Ds RP SC r k c Hr D Hk Hc Hg. pose proof (rp_part _ _ _ _ _ _ _ RP r Hr) as PA. fold D in PA. destruct (Z.eq_dec (owner epart c) r) as [E|N].
  - left. split; [exact E|]. assert (HI : In c (dm_loctoglob D)). { rewrite (pa_cells _ _ _ _ _ _ _ PA). unfold owned. apply filter_In. split; [apply in_range; exact Hc | lia]. }
    apply In_nthZ with (d := -1) in HI as (l & Hl & El). exists l. split; [|exact El]. apply (pa_node_cells _ _ _ _ _ _ _ PA k Hk l). split; [exact Hl|]. change (gcell D l = c) in El. rewrite El. exact Hg.
  - right. split; [exact N|]. assert (HI : In (gnode D k) (dm_nodeglob D)) by (apply nthZ_In; exact Hk). apply (proj2 (pa_nodes _ _ _ _ _ _ _ PA)) in HI as (c' & Hc' & Oc' & Hg').
    assert (CA : cut_at dim cells epart r (gnode D k)). { rewrite <- Oc'. apply (around_cut dim cells epart _ c' c); [apply SC; assumption | congruence]. }
    destruct (pa_halos _ _ _ _ _ _ _ PA) as (_ & HH & _). destruct (proj2 (HH c)) as (h & Hh & Eh). { split; [exact Hc|]. split; [exact N|]. exists c'. split; [exact Hc'|]. split; [exact Oc'|]. exists (gnode D k). split; assumption. }
    exists h. split; [|exact Eh]. apply (pa_node_halos _ _ _ _ _ _ _ PA k Hk h). split; [apply (pa_node_labels _ _ _ _ _ _ _ PA k Hk); exact CA|]. split; [exact Hh | rewrite Eh; exact Hg].
Qed.
Print Assumptions C68_whole_stencil.

(** ... and the facets of the boundary of the mesh at each of its nodes: those of its cells with their ghosts, the others with the ghosts received
    from their owners. *)
Lemma ghost_seen dim SIZE cells nodes labels epart Ds r k c F : wf_mesh dim (zlen nodes) cells -> represents dim SIZE cells nodes labels epart Ds -> 0 <= r < SIZE -> let D := domain_of Ds r in
  isnode_of D k -> only_cell dim cells c F -> In (gnode D k) F -> owner epart c = r ->
  exists e, In e (ghosts_of D k) /\ iscell_of D (g_cell e) /\ gcell D (g_cell e) = c /\ mirror nodes F (cell_centre dim nodes (cell cells c)) (g_pt e) /\ g_name e = face_label (priority dim) (map (nthZ 0 labels) F).
Proof.
  intros WF RP Hr D Hk Ho Hg Oc. pose proof (wm_dim _ _ _ WF) as Hdim. pose proof (rp_part _ _ _ _ _ _ _ RP r Hr) as PA. fold D in PA. pose proof (proj1 Ho) as HF. destruct (pa_facets _ _ _ _ _ _ _ PA c F HF Oc) as (f & HG & _).
  assert (OW : forall z, iscell_of D z -> owner epart (gcell D z) = r). { intros z Hz. assert (HI : In (gcell D z) (owned cells epart r)) by (rewrite <- (pa_cells _ _ _ _ _ _ _ PA); apply nthZ_In; exact Hz). unfold owned in HI. apply filter_In in HI as (_ & X). lia. }
  destruct (pa_kinds _ _ _ _ _ _ _ PA f c F HF HG) as [a b Ca Cb two sides _ _ | a Ca one row name label | a Ca Hh other sides _ _].
  - exfalso. apply two. pose proof (proj2 Ho _ (proj2 (sides (gcell D a)) (or_introl eq_refl))) as X. pose proof (proj2 Ho _ (proj2 (sides (gcell D b)) (or_intror eq_refl))) as Y.
    apply (nthZ_inj_NoDup (-1) (dm_loctoglob D)); [rewrite (pa_cells _ _ _ _ _ _ _ PA); unfold owned; apply NoDup_filter, NoDup_range | exact Ca | exact Cb | unfold gcell in X, Y; congruence].
  - destruct (pa_node_ghosts _ _ _ _ _ _ _ PA k Hk) as (EL & HE).
    assert (HI : In f (map g_last (ghosts_of D k))).
    { rewrite EL. apply filter_In. split; [apply in_range; exact (proj1 HG)|]. replace (1 <=? nthZ 0 (dm_name D) f) with true by lia. replace (nthZ 0 (dm_name D) f <=? 2 * dim) with true by lia. cbn [andb]. apply mem_In.
      assert (X : In (gnode D k) (map (gnode D) (nthZ [] (dm_facenodes D) f))) by (apply (Permutation_in _ (Permutation_sym (proj2 HG))); exact Hg). apply in_map_iff in X as (k' & Ek & Hk'). replace k with k'; [exact Hk'|].
      apply (nthZ_inj_NoDup (-1) (dm_nodeglob D)); [exact (proj1 (pa_nodes _ _ _ _ _ _ _ PA)) | | exact Hk | exact Ek].
      pose proof (proj2 (pa_numbers _ _ _ _ _ _ _ PA) f (proj1 HG)) as X. rewrite Forall_forall in X. exact (X k' Hk'). }
    apply in_map_iff in HI as (e & Ef & He). exists e. split; [exact He|]. destruct (HE e He) as (E1 & E2 & E3). rewrite Ef in E1, E2, E3. assert (La : left_of D f = a) by (unfold left_of; rewrite row; reflexivity). rewrite La in E2. rewrite E2.
    assert (Ec : gcell D a = c). { symmetry. apply (proj2 one). exact HF. }
    split; [exact Ca|]. split; [exact Ec|]. split; [|rewrite E3; exact name]. rewrite E1. pose proof (pa_ghosts _ _ _ _ _ _ _ PA f F HG label) as M. rewrite La in M. destruct (pa_cell _ _ _ _ _ _ _ PA a Ca) as (_ & CE & _). rewrite CE, Ec in M. exact M.
  - exfalso. apply other. rewrite (proj2 Ho _ (proj2 (sides _) (or_intror eq_refl))). exact Oc.
Qed.

Theorem C68_whole_boundary : forall dim SIZE cells nodes labels epart Ds, valid_mesh dim cells nodes labels -> represents dim SIZE cells nodes labels epart Ds -> star_connected dim cells ->
  (forall c, iscell cells c -> 0 <= owner epart c < SIZE) ->
  forall r k c F, 0 <= r < SIZE -> let D := domain_of Ds r in isnode_of D k -> only_cell dim cells c F -> In (gnode D k) F ->
  let seen e := mirror nodes F (cell_centre dim nodes (cell cells c)) (g_pt e) /\ g_name e = face_label (priority dim) (map (nthZ 0 labels) F) in
  (owner epart c = r /\ exists e, In e (ghosts_of D k) /\ iscell_of D (g_cell e) /\ gcell D (g_cell e) = c /\ seen e) \/
  (owner epart c <> r /\ exists e, In e (haloghosts_of D k) /\ ishalo_of D (g_cell e) /\ ghalo D (g_cell e) = c /\ seen e).
Proof.
  intros dim SIZE cells nodes labels epart Ds VM RP SC OW r k c F Hr D Hk Ho Hg seen. unfold seen. pose proof (vm_mesh _ _ _ _ VM) as WF. pose proof (rp_part _ _ _ _ _ _ _ RP r Hr) as PA. fold D in PA. destruct (Z.eq_dec (owner epart c) r) as [E|N].
  - left. split; [exact E|]. exact (ghost_seen dim SIZE cells nodes labels epart Ds r k c F WF RP Hr Hk Ho Hg E).
  - right. split; [exact N|]. destruct (proj1 Ho) as (Hc & _ & _ & Hi). pose proof (OW c Hc) as Hs. set (s := owner epart c) in *. pose proof (rp_part _ _ _ _ _ _ _ RP s Hs) as PB. set (D' := domain_of Ds s) in *.
    assert (Hg' : In (gnode D k) (cell cells c)) by (apply Hi, Hg).
    assert (HI : In (gnode D k) (dm_nodeglob D)) by (apply nthZ_In; exact Hk). apply (proj2 (pa_nodes _ _ _ _ _ _ _ PA)) in HI as (c' & Hc' & Oc' & Hgc').
    assert (CA : cut_at dim cells epart r (gnode D k)). { rewrite <- Oc'. apply (around_cut dim cells epart _ c' c); [apply SC; assumption | rewrite Oc'; fold s; congruence]. }
    assert (CB : cut_at dim cells epart s (gnode D k)). { apply (around_cut dim cells epart _ c c'); [apply SC; assumption | rewrite Oc'; exact N]. }
    assert (HI : In (gnode D k) (dm_nodeglob D')) by (apply (proj2 (pa_nodes _ _ _ _ _ _ _ PB)); exists c; auto). apply In_nthZ with (d := -1) in HI as (k' & Hk' & Ek'). change (gnode D' k' = gnode D k) in Ek'.
    destruct (ghost_seen dim SIZE cells nodes labels epart Ds s k' c F WF RP Hs Hk' Ho) as (e' & He' & Ce' & Ec & M & Nm); [fold D'; rewrite Ek'; exact Hg | reflexivity|]. fold D' in He', Ce', Ec.
    pose proof (proj2 (proj1 (pa_node_labels _ _ _ _ _ _ _ PA k Hk)) CA) as L10. assert (L10' : nthZ 0 (dm_nodename D') k' = 10) by (apply (pa_node_labels _ _ _ _ _ _ _ PB k' Hk'); rewrite Ek'; exact CB).
    destruct (rp_ghosts _ _ _ _ _ _ _ RP r Hr) as (_ & RG & _). fold D in RG. destruct (RG k Hk L10) as (F2 & _).
    assert (HO : In (s, e') (others_at_node SIZE Ds r (gnode D k))).
    { unfold others_at_node. apply in_flat_map. exists s. split; [apply in_range; exact Hs|]. destruct (Z.eqb_spec s r) as [X|_]; [contradiction|]. apply in_map. unfold ghosts_at_node. fold D'. apply in_flat_map. exists k'. split; [apply in_range; exact Hk'|].
      rewrite Ek', L10', Z.eqb_refl. exact He'. }
    apply In_nthZ with (d := (s, e')) in HO as (i & Hi' & Ei). destruct (Forall2_nthZ _ (s, e') e' _ _ F2) as (LL & HH). specialize (HH i Hi'). rewrite Ei in HH. cbn [fst snd] in HH. destruct HH as (A & B & C & E). fold D' in E.
    exists (nthZ e' (haloghosts_of D k) i). split; [apply nthZ_In; lia|]. split; [exact C|]. split; [rewrite E; exact Ec|]. rewrite A, B. split; [exact M | exact Nm].
Qed.
Print Assumptions C68_whole_boundary.

(** the condition on several ranks: it is enough that the mesh is connected through facets and every rank owns a cell *)
Lemma linked_split dim cells epart r a b : linked dim cells a b -> owner epart a = r -> owner epart b <> r ->
  exists x y F, has_facet dim cells x F /\ has_facet dim cells y F /\ owner epart x = r /\ owner epart y <> r.
Proof.
  induction 1 as [c|a b c F Ha Hb Hbc IH]; intros Oa Oc; [contradiction|]. destruct (Z.eq_dec (owner epart b) r) as [E|N]; [apply IH; assumption|]. exists a, b, F. auto.
Qed.
Theorem C68_connected_mesh : forall dim SIZE cells nodes npart0 epart, 1 < SIZE ->
  zlen epart = zlen cells -> (forall c, iscell cells c -> 0 <= owner epart c < SIZE) -> zlen npart0 = zlen nodes -> metis_contract cells nodes npart0 epart ->
  (forall a b, iscell cells a -> iscell cells b -> linked dim cells a b) -> (forall r, 0 <= r < SIZE -> exists c, iscell cells c /\ owner epart c = r) ->
  valid_split dim SIZE cells nodes npart0 epart.
Proof.
  intros dim SIZE cells nodes npart0 epart HS LE OW LN MC LK HO. constructor; [lia | auto | lia |]. intros _. split; [exact LN|]. split; [exact MC|]. intros r Hr.
  destruct (HO r Hr) as (a & Ha & Oa). destruct (HO (if r =? 0 then 1 else 0)) as (b & Hb & Ob); [destruct (r =? 0); lia|]. apply (linked_split dim cells epart r a b (LK a b Ha Hb) Oa). rewrite Ob. destruct (Z.eqb_spec r 0); lia.
Qed.
Print Assumptions C68_connected_mesh.

(** ** The unit square cut along the diagonal: on one rank, and one triangle for each of two ranks *)
Theorem C68_square : valid_mesh 2 sq sq_v [4; 4; 3; 3].
Proof.
  assert (LB : forall l, In l [4; 4; 3; 3] -> l = 3 \/ l = 4) by (intros l H; labs H). constructor.
  - exact sq_wf.
  - exact sq_nonflat.
  - exact sq_proper.
  - split; [reflexivity|]. intros l H. apply LB in H. lia.
  - intros c F (H & _). pose proof (two_labels_2d (map (nthZ 0 [4; 4; 3; 3]) F)) as T. enough (3 <= face_label (priority 2) (map (nthZ 0 [4; 4; 3; 3]) F) <= 4) by lia. apply T.
    + apply (map_nonempty _ _ 2); [exact (proj1 (proj2 (proj2 H))) | lia].
    + intros x Hx. exact (labelled 2 4 [4; 4; 3; 3] sq _ sq_wf eq_refl LB c F x H Hx).
Qed.
Lemma sq_facet c : c = 0 \/ c = 1 -> has_facet 2 sq c [0; 2].
Proof. intros Hc. split; [unfold iscell; change (zlen sq) with 2; lia|]. split; [repeat constructor; lia|]. split; [reflexivity|]. intros x Hx. destruct Hc as [-> | ->]; vm_compute; cbn in Hx; lia. Qed.
Theorem C68_square_alone : valid_split 2 1 sq sq_v [0; 0; 0; 0] [0; 0].
Proof.
  constructor; [lia | | |lia].
  - split; [reflexivity|]. intros c Hc. unfold iscell in Hc. change (zlen sq) with 2 in Hc. assert (E : c = 0 \/ c = 1) by lia. destruct E as [-> | ->]; vm_compute; split; congruence.
  - intros _. split; [reflexivity|]. intros k Hk. change (zlen sq_v) with 4 in Hk. assert (Hc : k = 0 \/ k = 1 \/ k = 2 \/ k = 3) by lia. destruct Hc as [-> | [-> | [-> | ->]]]; [exists 0 | exists 0 | exists 0 | exists 1]; (split; [unfold iscell; cbn; lia | vm_compute; auto]).
Qed.
Theorem C68_square_split : valid_split 2 2 sq sq_v [0; 0; 1; 1] [0; 1].
Proof.
  assert (CC : forall c, iscell sq c -> c = 0 \/ c = 1) by (intros c Hc; unfold iscell in Hc; change (zlen sq) with 2 in Hc; lia).
  apply C68_connected_mesh; [lia | reflexivity | | reflexivity | | |].
  - intros c Hc. destruct (CC c Hc) as [-> | ->]; vm_compute; split; congruence.
  - intros c k Hc Hk. change (iscell sq c) in Hc. destruct (CC c Hc) as [-> | ->]; vm_compute in Hk; destruct Hk as [<-|[<-|[<-|[]]]]; [exists 0 | exists 0 | exists 1 | exists 0 | exists 1 | exists 1]; (split; [split; [lia | reflexivity]|]); (split; [vm_compute; tauto | reflexivity]).
  - intros a b Ha Hb. apply (linked_step 2 sq a b b [0; 2]); [apply sq_facet, CC, Ha | apply sq_facet, CC, Hb | apply linked_refl].
  - intros r Hr. exists r. assert (E : r = 0 \/ r = 1) by lia. split; [unfold iscell; change (zlen sq) with 2; lia|]. destruct E as [-> | ->]; reflexivity.
Qed.
Theorem C68_square_stars : star_connected 2 sq.
Proof.
  assert (CC : forall c, iscell sq c -> c = 0 \/ c = 1) by (intros c Hc; unfold iscell in Hc; change (zlen sq) with 2 in Hc; lia).
  intros g a b Ha Hb Hga Hgb. destruct (Z.eq_dec a b) as [->|N]; [apply around_refl|]. apply (around_step 2 sq g a b b [0; 2]); [apply sq_facet, CC, Ha | apply sq_facet, CC, Hb | | apply around_refl].
  destruct (CC a Ha) as [-> | ->], (CC b Hb) as [-> | ->]; try lia; vm_compute in Hga, Hgb; cbn; lia.
Qed.
(** so both set-ups succeed *)
Theorem C68_square_runs : forall f32, (exists st, setup f32 2 1 sq sq_v [4; 4; 3; 3] [0; 0; 0; 0] [0; 0] = Ok st) /\ (exists st, setup f32 2 2 sq sq_v [4; 4; 3; 3] [0; 0; 1; 1] [0; 1] = Ok st).
Proof.
  intros f32. split; [destruct (C68_parallel_setup f32 _ _ _ _ _ _ _ C68_square C68_square_alone) as (st & E & _) | destruct (C68_parallel_setup f32 _ _ _ _ _ _ _ C68_square C68_square_split) as (st & E & _)]; exists st; exact E.
Qed.
