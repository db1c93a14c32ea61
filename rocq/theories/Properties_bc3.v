(** * Properties_bc3: C35 for the ghosts of boundary faces that lie on another rank (halo ghosts).
    Vocabulary: [Spec_bc], [Spec_bc3]. *)
From Verif Require Import Py PyLemmas Model_part Model_label Model_conn Model_geom Spec_geom Model_interp Spec_interp Model_bc Spec_bc Spec_bc3 Proofs_conn1 Proofs_label Proofs_bc Proofs_bc2 Proofs_bc3.
From Coq Require Import Permutation Lra ZifyBool Sorted.
Open Scope Z_scope.

Lemma built_full D bc vs : wf_bcdom D -> hg_distinct D -> bc_settings D bc vs -> exists s, foldM (bc_entry D (Some vs)) bc (init_state D) = Ok s /\ inv D vs bc s /\ hinv D vs bc s /\ xinv bc s.
Proof.
  intros WF HD (KN & CS & CO & DF & NS). pose proof (loop_ok D WF vs bc [] (init_state D) (init_inv D vs) (proj1 KN) (proj2 KN) DF) as HL. rewrite (proj2 (good_consistent D WF bc vs KN) CS) in HL. cbn [app] in HL. destruct HL as (s & E & I).
  exists s. split; [exact E|]. split; [exact I|]. split.
  - exact (proj2 (hloop D WF HD vs bc [] (init_state D) s (init_inv D vs) (hinit D WF vs) (proj1 KN) (proj2 KN) DF E)).
  - apply (xloop D vs bc [] (init_state D) s); [intros ? ? ? [] | exact (proj1 KN) | exact E].
Qed.

(** C35 on a cut boundary.  After any history of in-place changes, an update stores in the halo ghosts what the conditions prescribe for what the
    halo cells hold now: the value of the halo cell on a neumann side; on a dirichlet side the value prescribed at the centre of the face by the
    dirichlet side whose label the node carries. *)
Theorem C35_cut_boundary : forall D bc vs ops, wf_bcdom D -> hg_distinct D -> bc_settings D bc vs -> Forall (op_ok D) ops ->
  exists v0 v1 v2 h g, new_variable D (Some bc) (Some vs) = Ok v0 /\ foldM (apply D) ops v0 = Ok v1 /\ update_ghost_value D v1 = Ok v2 /\
  get (va_heap v1) r_halo = Ok h /\ get (va_heap v2) r_halo = Ok h /\ get (va_heap v2) r_haloghost = Ok g /\ haloghosts_updated D bc vs h g.
Proof.
  intros D bc vs ops WF HD ST HO. destruct (built_full D bc vs WF HD ST) as (s & E & I & HI & IX). destruct ST as (KN & CS & CO & DF & NS).
  unfold new_variable. rewrite E. cbn [bind]. set (v0 := {| va_heap := vs_heap s |}). pose proof (built_in_use D vs bc s I v0 eq_refl) as U0.
  destruct (run_in_use D WF vs bc s I NS KN CO ops _ _ U0 HO) as (v1 & E1 & U1). destruct (update_in_use D WF vs bc s I NS KN CO _ v1 U1) as (v2 & E2 & U2 & _).
  destruct U1 as (A1 & A2 & A3 & A4), U2 as (B1 & B2 & B3 & B4). pose proof (shape_zlen D vs bc s I _ A3) as LA. pose proof (shape_zlen D vs bc s I _ B3) as LB.
  exists v0, v1, v2, (nthZ [] (va_heap v1) 2), (nthZ [] (va_heap v2) 4). split; [reflexivity|]. split; [exact E1|]. split; [exact E2|].
  unfold r_halo, r_haloghost. rewrite !(get_nthZ []) by lia. split; [reflexivity|]. split; [|split; [reflexivity | exact (update_halo D WF HD vs bc s I HI IX NS KN CO v1 v2 A2 A3 E2)]].
  f_equal. unfold update_ghost_value in E2. rewrite A2 in E2. apply bind_ok in E2 as (h' & E2 & Ev). injection Ev as <-. cbn [va_heap]. change (locs (bd_dim D)) with (sides (bd_dim D)) in E2.
  destruct (update_loop D WF vs bc s I NS (sides (bd_dim D))) with (h := va_heap v1) as (h1 & E1' & F1 & _); [| exact (locs_NoDup D) | exact A3|].
  { intros l Hl. specialize (CO l Hl). apply in_map_iff in CO. destruct CO as ((k, t) & Ek & Hin). cbn [fst] in Ek. subst k. exists t. split; [exact Hin|]. destruct KN as (_ & K). destruct (K l t Hin) as (_ & K1 & K2). split; assumption. }
  rewrite E2 in E1'. injection E1' as <-. destruct F1 as (_ & Fr). destruct (Fr 2) as (_ & X); [lia|]. apply X. cbn [In]; lia.
Qed.
Print Assumptions C35_cut_boundary.

(** so wherever the nodes carry the label of the cut face the halo ghost holds what the whole domain's ghost would hold *)
Theorem C35_cut_boundary_aligned : forall D bc vs ops, wf_bcdom D -> hg_distinct D -> bc_settings D bc vs -> Forall (op_ok D) ops ->
  exists v0 v1 v2 h g, new_variable D (Some bc) (Some vs) = Ok v0 /\ foldM (apply D) ops v0 = Ok v1 /\ update_ghost_value D v1 = Ok v2 /\
  get (va_heap v1) r_halo = Ok h /\ get (va_heap v2) r_haloghost = Ok g /\
  forall i j l t, In i (bd_halonodes D) -> hg_pos D i j -> In (l, t) bc -> t = BNeumann \/ t = BDirichlet -> g_name (hg_at D i j) = side_label l ->
    (t = BDirichlet -> nthZ 0 (bd_oldname D) i = side_label l) ->
    nthZ 0%R g (g_last (hg_at D i j)) = match t with BNeumann => nthZ 0%R h (g_cell (hg_at D i j)) | _ => prescribed_at vs l (hg_face D i j) end.
Proof.
  intros D bc vs ops WF HD ST HO. destruct (C35_cut_boundary D bc vs ops WF HD ST HO) as (v0 & v1 & v2 & h & g & E0 & E1 & E2 & H1 & _ & H2 & (_ & HG)).
  exists v0, v1, v2, h, g. split; [exact E0|]. split; [exact E1|]. split; [exact E2|]. split; [exact H1|]. split; [exact H2|].
  intros i j l t Hi HP Hin Ht En Hl. destruct (HG i j l Hi HP En) as (N & Dd). destruct Ht as [-> | ->]; [exact (N Hin)|]. destruct (Dd Hin) as (A & _). exact (A l Hin (Hl eq_refl)).
Qed.
Print Assumptions C35_cut_boundary_aligned.

(** ** the corner of a domain: one own cell, one halo cell; node 0, on the corner of the upper side (label 3) and the left side, has a halo ghost of a
    face of the left side "in" (label 1) *)
Definition corner_at (lab : Z) : bcdom := {| bd_dim := 2; bd_nbcells := 1; bd_nbnodes := 1; bd_nbhalos := 1; bd_sizehg := 1; bd_name := [3]; bd_fcenter := [P3 (1/2) 1 0]; bd_cellid := [[0; -1]];
  bd_oldname := [lab]; bd_vertex := [P3 0 1 0]; bd_hg := [[{| g_pt := P3 (-1/4) (1/2) 0; g_cell := 0; g_name := 1; g_last := 0 |}]]; bd_hginfo := [[P3 0 (1/2) 0]]; bd_halonodes := [0] |}.
Definition corner_bc : list (loc * bctype) := [(LIn, BDirichlet); (LOut, BNeumann); (LUpper, BNeumann); (LBottom, BNeumann)].
Definition corner_vs : list (loc * bcval) := [(LIn, VFun (fun _ y _ => (10 * y)%R))].
Lemma corner_wf lab : wf_bcdom (corner_at lab).
Proof.
  constructor; cbn.
  - left; reflexivity.
  - repeat split; discriminate.
  - repeat split; reflexivity.
  - intros f Hf. change (zlen [3]) with 1 in Hf. assert (f = 0) as -> by lia. repeat split; discriminate.
  - intros i Hi. assert (i = 0) as -> by lia. split; [reflexivity|]. intros e [<-|[]]. right. cbn. lia.
  - intros i [<-|[]]. lia.
  - intros l [H|[]]. destruct l; discriminate H.
  - intros l _ [H|[]]. destruct l; discriminate H.
  - intros l n e _ [H|[]]. destruct l; discriminate H.
Qed.
Lemma corner_distinct lab : hg_distinct (corner_at lab).
Proof.
  intros i j i' j' (Hi & Hj & _) (Hi' & Hj' & _) _. cbn [bd_nbnodes corner_at] in Hi, Hi'. assert (i = 0) as -> by lia. assert (i' = 0) as -> by lia.
  change (0 <= j < 1) in Hj. change (0 <= j' < 1) in Hj'. lia.
Qed.
Lemma corner_settings lab : bc_settings (corner_at lab) corner_bc corner_vs.
Proof.
  unfold bc_settings. split; [|split; [|split; [|split]]].
  - split. { cbn. repeat (constructor; [cbn; intuition discriminate|]). constructor. } intros l t H. cbn [corner_bc In] in H. repeat (destruct H as [H|H]; [injection H as <- <-; split; [cbn; tauto | split; discriminate]|]). contradiction.
  - split.
    + intros l t H. unfold side_periodic. cbn [corner_at bd_name In]. cbn [corner_bc In] in H. repeat (destruct H as [H|H]; [injection H as <- <-; split; [discriminate | intros [X|[]]; discriminate X]|]). contradiction.
    + intros l H. cbn [corner_bc In] in H. repeat (destruct H as [H|H]; [inversion H; subst; discriminate|]). contradiction.
  - intros l H. cbn in *. tauto.
  - cbn [corner_bc dirichlet_first]. split; [intros [X|X]; discriminate X|]. split; [intros _ l [H|[H|[]]]; discriminate H|]. split; [intros _ l [H|[]]; discriminate H|]. split; [intros _ l []|]. exact I.
  - intros l ? ? H. exfalso. cbn [corner_bc In] in H. repeat (destruct H as [H|H]; [discriminate H|]). contradiction.
Qed.

(** the node of the corner carries the label of the upper side, so the ghost of the cut "in" face gets 0 and not the value 10 y = 5 prescribed on "in" *)
Theorem C35_cut_corner_refuted : exists D bc vs i j l, wf_bcdom D /\ hg_distinct D /\ bc_settings D bc vs /\ In i (bd_halonodes D) /\ hg_pos D i j /\ In (l, BDirichlet) bc /\ g_name (hg_at D i j) = side_label l /\
  forall ops v0 v1 v2 g, Forall (op_ok D) ops -> new_variable D (Some bc) (Some vs) = Ok v0 -> foldM (apply D) ops v0 = Ok v1 -> update_ghost_value D v1 = Ok v2 -> get (va_heap v2) r_haloghost = Ok g ->
    nthZ 0%R g (g_last (hg_at D i j)) = 0%R /\ prescribed_at vs l (hg_face D i j) = 5%R.
Proof.
  exists (corner_at 3), corner_bc, corner_vs, 0, 0, LIn. split; [apply corner_wf|]. split; [apply corner_distinct|]. split; [apply corner_settings|]. split; [left; reflexivity|].
  assert (HP : hg_pos (corner_at 3) 0 0) by (split; [cbn; lia|]; split; [change (0 <= 0 < 1); lia | discriminate]).
  split; [exact HP|]. split; [left; reflexivity|]. split; [reflexivity|]. intros ops v0 v1 v2 g HO E0 E1 E2 E3.
  destruct (C35_cut_boundary (corner_at 3) corner_bc corner_vs ops (corner_wf 3) (corner_distinct 3) (corner_settings 3) HO) as (w0 & w1 & w2 & h & g' & F0 & F1 & F2 & _ & _ & F3 & (_ & HG)).
  rewrite F0 in E0. injection E0 as <-. rewrite F1 in E1. injection E1 as <-. rewrite F2 in E2. injection E2 as <-. rewrite F3 in E3. injection E3 as <-.
  destruct (HG 0 0 LIn ltac:(left; reflexivity) HP eq_refl) as (_ & X). destruct (X ltac:(left; reflexivity)) as (_ & Y). split.
  - apply Y. intros l' H. cbn [corner_bc In] in H. repeat (destruct H as [H|H]; [inversion H; subst; discriminate|]). contradiction.
  - change ((10 * (1 / 2))%R = 5%R). lra.
Qed.
Print Assumptions C35_cut_corner_refuted.
(** with the label of "in" on the node the hypotheses hold and the ghost gets 5 *)
Example C35_cut_boundary_example : exists v0 v1 v2 g, new_variable (corner_at 1) (Some corner_bc) (Some corner_vs) = Ok v0 /\ foldM (apply (corner_at 1)) [SetHalo [7%R]] v0 = Ok v1 /\ update_ghost_value (corner_at 1) v1 = Ok v2 /\
  get (va_heap v2) r_haloghost = Ok g /\ nthZ 0%R g 0 = 5%R.
Proof.
  destruct (C35_cut_boundary_aligned (corner_at 1) corner_bc corner_vs [SetHalo [7%R]] (corner_wf 1) (corner_distinct 1) (corner_settings 1)) as (v0 & v1 & v2 & h & g & F0 & F1 & F2 & _ & F3 & HG).
  { constructor; [reflexivity | constructor]. }
  exists v0, v1, v2, g. split; [exact F0|]. split; [exact F1|]. split; [exact F2|]. split; [exact F3|].
  specialize (HG 0 0 LIn BDirichlet ltac:(left; reflexivity) ltac:(split; [cbn; lia|]; split; [change (0 <= 0 < 1); lia | discriminate]) ltac:(left; reflexivity) (or_intror eq_refl) eq_refl (fun _ => eq_refl)).
  change (nthZ 0%R g 0 = (10 * (1 / 2))%R) in HG. rewrite HG. lra.
Qed.
