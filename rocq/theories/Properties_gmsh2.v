(** * Properties_gmsh2: periodic sides given in the mesh file; examples (C95, continued). *)
From Coq Require Import Reals Lra Permutation Sorted.
From Verif Require Import Py PyLemmas Model_part Spec_part Model_label Spec_label Properties_label Model_conn Spec_conn Proofs_conn1 Proofs_conn2 Model_geom Spec_geom Proofs_geom1 Proofs_geom2 Model_interp Spec_interp Model_domain Spec_domain Model_parallel Spec_parallel Model_gmsh Spec_gmsh Proofs_gmsh Properties_gmsh.
From Verif Require Model_periodic Spec_periodic Spec_per Properties_per Examples_run3 Examples_per Examples_periodic.
Import Model_periodic(axis, AX, AY, AZ) Spec_periodic(axes, low_label, high_label, absent) Spec_per(flabel, periodic_direction, plain_direction, periodic_mesh).
Open Scope Z_scope.

(** C95.  Periodic directions asked for in readmesh: if the sides of these directions match ([periodic_direction]), the mesh that goes to the partition meets the hypotheses of the theorems on
    periodic meshes (C90). *)
Theorem C95_periodic : forall f32 dim M px py pz, mesh_in_file dim M -> sides_in_file dim M -> boundary_tagged dim M -> (forall F t, tagged M F t -> has_own_node M F t) -> (dim = 3 -> pz = true -> py = true) ->
  exists labels, labels_of_file CellsDict dim px py pz M = Ok labels /\
    (forall SIZE npart0 epart, setup_from_file f32 CellsDict dim SIZE px py pz M npart0 epart = setup f32 dim SIZE (create_cell_nodeid M) (mf_points M) labels npart0 epart) /\
    (forall F t, tagged M F t -> flabel dim labels F = label_of_side px py pz t) /\
    ((forall a, In a (axes dim) -> (match a with AX => px | AY => py | AZ => pz end) = true -> exists L, periodic_direction dim (mf_cells M) (mf_points M) labels f32 a L) ->
     periodic_mesh dim (create_cell_nodeid M) (mf_points M) labels f32).
Proof.
  intros f32 dim M px py pz MI SI BT OWN PZ. pose proof (wm_dim _ _ _ (mi_mesh _ _ MI)) as HD. destruct (labels_file dim M HD SI px py pz) as (labels & E & L & V). exists labels. split; [exact E|]. split; [intros; unfold setup_from_file; rewrite E; reflexivity|].
  assert (FL : forall F t, tagged M F t -> flabel dim labels F = label_of_side px py pz t).
  { intros F t TG. apply (face_label_file dim M HD SI px py pz labels F t V TG); [exact (OWN F t TG) | exact PZ]. }
  split; [exact FL|]. intros DIR.
  assert (SO : forall c F, only_cell dim (create_cell_nodeid M) c F <-> only_cell dim (mf_cells M) c F) by (intros; apply sorted_only).
  assert (TB : forall c F, only_cell dim (create_cell_nodeid M) c F -> exists t, 1 <= t <= 2 * dim /\ flabel dim labels F = label_of_side px py pz t).
  { intros c F H. apply SO in H. destruct (BT c F H) as (t & TG). exists t. split; [apply (tagged_in dim M SI F t TG) | exact (FL F t TG)]. }
  assert (LB : forall l, In l labels -> l = 0 \/ exists t, 1 <= t <= 2 * dim /\ l = label_of_side px py pz t).
  { intros l Hl. destruct (In_nthZ 0 _ _ Hl) as (k & Hk & <-). rewrite L in Hk. destruct (V k Hk) as [(-> & _)|(t & -> & ON & _)]; [left; reflexivity | right; exists t; split; [exact (side_known dim M SI k t ON) | reflexivity]]. }
  assert (LS : forall t, 1 <= t <= 2 * dim -> 1 <= label_of_side px py pz t <= 2 * dim \/ is_periodic dim (label_of_side px py pz t) = true).
  { intros t Ht. assert (C : t = 1 \/ t = 2 \/ t = 3 \/ t = 4 \/ dim = 3 /\ (t = 5 \/ t = 6)) by (destruct HD; lia).
    destruct C as [-> | [-> | [-> | [-> | (-> & [-> | ->])]]]]; destruct px, py, pz; unfold label_of_side, direction; (right; reflexivity) || (left; match goal with |- 1 <= ?x <= _ => let v := eval vm_compute in x in change x with v end; destruct HD; lia). }
  constructor.
  - apply sorted_mesh, (mi_mesh _ _ MI).
  - intros c Hc. unfold create_cell_nodeid in *. pose proof (proj1 (sorted_iscell (mf_cells M) c) Hc) as Hc0. rewrite sorted_cell by exact Hc0. apply (nonflat_perm dim (mf_points M) (cell (mf_cells M) c)); [apply Permutation_sym, np_sort_perm | apply (mi_nonflat _ _ MI); exact Hc0].
  - apply sorted_proper, (mi_proper _ _ MI).
  - split; [exact L|]. intros l Hl. destruct (LB l Hl) as [-> | (t & Ht & ->)]; [left; destruct HD; lia | destruct (LS t Ht); [left; lia | right; assumption]].
  - intros c F H. destruct (TB c F H) as (t & Ht & ->). exact (LS t Ht).
  - intros a Ha. destruct (match a with AX => px | AY => py | AZ => pz end) eqn:PA.
    + right. destruct (DIR a Ha PA) as (Lg & PD). exists Lg. destruct PD as [a1 a2 a3 (c0 & F0 & H0 & H0') a5 a6 a7 a8 a9]. constructor; try assumption.
      * exists c0, F0. split; [apply SO; exact H0 | exact H0'].
      * intros c F H HL. apply SO in H. destruct (a5 c F H HL) as (c' & G & HG & X). exists c', G. split; [apply SO; exact HG | exact X].
      * intros c F H HL. apply SO in H. destruct (a6 c F H HL) as (c' & G & HG & X). exists c', G. split; [apply SO; exact HG | exact X].
      * intros c F c' G H H'. apply SO in H, H'. exact (a7 c F c' G H H').
      * intros c F H. apply SO in H. exact (a8 c F H).
    + left. assert (NL : forall t, 1 <= t <= 2 * dim -> label_of_side px py pz t <> low_label a /\ label_of_side px py pz t <> high_label a).
      { intros t Ht. assert (C : t = 1 \/ t = 2 \/ t = 3 \/ t = 4 \/ t = 5 \/ t = 6) by (destruct HD; lia). destruct a; rewrite PA; destruct C as [-> | [-> | [-> | [-> | [-> | ->]]]]]; unfold label_of_side, direction; cbn; try (destruct px); try (destruct py); try (destruct pz); lia. }
      split; [intros c F H; destruct (TB c F H) as (t & Ht & ->); exact (NL t Ht)|].
      split; intros Hl; (destruct (LB _ Hl) as [E0 | (t & Ht & E0)]; [destruct a; discriminate E0 | pose proof (NL t Ht); lia]).
Qed.
Print Assumptions C95_periodic.

(** ** The channel of four triangles, with a tagged boundary *)
Import Examples_run3(ch, ch_v, ch_wf, ch_cells, ch_facets, ch_facet, ch_nonflat, ch_proper).
Definition channel_file : meshfile := {| mf_points := ch_v; mf_cells := ch; mf_facets := [[0; 1]; [1; 2]; [2; 5]; [5; 4]; [4; 3]; [3; 0]]; mf_tags := [4; 4; 2; 3; 3; 1] |}.
Lemma side_of i : 0 <= i < zlen (mf_facets channel_file) -> i = 0 \/ i = 1 \/ i = 2 \/ i = 3 \/ i = 4 \/ i = 5.
Proof. change (zlen (mf_facets channel_file)) with 6. lia. Qed.
Lemma channel_side k t : on_side channel_file k t -> In (k, t) [(0, 4); (1, 4); (2, 4); (2, 2); (5, 2); (5, 3); (4, 3); (3, 3); (3, 1); (0, 1)].
Proof. intros (i & Hi & Hk & <-). destruct (side_of i Hi) as [-> | [-> | [-> | [-> | [-> | ->]]]]]; vm_compute in Hk; destruct Hk as [<-|[<-|[]]]; vm_compute; tauto. Qed.
Theorem C95_channel : mesh_in_file 2 channel_file /\ sides_in_file 2 channel_file /\ boundary_tagged 2 channel_file /\ (forall F t, tagged channel_file F t -> has_own_node channel_file F t) /\
  labels_of_file CellsDict 2 false false false channel_file = Ok [1; 4; 2; 1; 3; 2] /\
  (forall f32, exists st, setup_from_file f32 CellsDict 2 1 false false false channel_file [0; 0; 0; 0; 0; 0] [0; 0; 0; 0] = Ok st) /\
  (forall f32, exists st, setup_from_file f32 CellsDict 2 2 false false false channel_file [0; 0; 1; 0; 1; 1] [0; 0; 1; 1] = Ok st).
Proof.
  assert (MI : mesh_in_file 2 channel_file) by (constructor; [exact ch_wf | exact ch_nonflat | exact ch_proper]).
  assert (SI : sides_in_file 2 channel_file).
  { constructor; [reflexivity | | |].
    - intros F HF. cbn in HF. repeat (destruct HF as [<-|HF]; [split; [reflexivity | intros k Hk; cbn in Hk; change (zlen (mf_points channel_file)) with 6; lia]|]). destruct HF.
    - intros t Ht. cbn in Ht. lia.
    - intros k t t' H H' D. apply channel_side in H, H'. cbn in H, H'. repeat (destruct H as [H|H]; [injection H as <- <-; repeat (destruct H' as [H'|H']; [first [discriminate H' | injection H' as <-; first [reflexivity | discriminate D]]|]); destruct H'|]). destruct H. }
  assert (BT : boundary_tagged 2 channel_file).
  { intros c F H. apply Examples_per.tor_facets in H. cbn in H.
    repeat (destruct H as [H|H]; [injection H as <- <-; first
      [ exists 4, 0; split; [vm_compute; split; congruence | split; [apply Permutation_refl | reflexivity]]
      | exists 4, 1; split; [vm_compute; split; congruence | split; [apply Permutation_refl | reflexivity]]
      | exists 3, 4; split; [vm_compute; split; congruence | split; [apply perm_swap | reflexivity]]
      | exists 3, 3; split; [vm_compute; split; congruence | split; [apply perm_swap | reflexivity]]
      | exists 1, 5; split; [vm_compute; split; congruence | split; [apply perm_swap | reflexivity]]
      | exists 2, 2; split; [vm_compute; split; congruence | split; [apply Permutation_refl | reflexivity]] ]|]). destruct H. }
  assert (OWN : forall F t, tagged channel_file F t -> has_own_node channel_file F t).
  { intros F t (i & Hi & P & Ht). assert (OW : forall k t', In (k, t') [(1, 4); (2, 2); (4, 3); (0, 1)] -> forall t'', on_side channel_file k t'' -> direction t' <= direction t'').
    { intros k t' HK t'' ON. apply channel_side in ON. cbn in HK, ON. destruct HK as [HK|[HK|[HK|[HK|[]]]]]; injection HK as <- <-; repeat (destruct ON as [ON|ON]; [first [discriminate ON | injection ON as <-; vm_compute; congruence]|]); destruct ON. }
    destruct (side_of i Hi) as [-> | [-> | [-> | [-> | [-> | ->]]]]]; vm_compute in P, Ht; subst t.
    - exists 1. split; [apply (Permutation_in 1 P); cbn; tauto | apply OW; cbn; tauto].
    - exists 1. split; [apply (Permutation_in 1 P); cbn; tauto | apply OW; cbn; tauto].
    - exists 2. split; [apply (Permutation_in 2 P); cbn; tauto | apply OW; cbn; tauto].
    - exists 4. split; [apply (Permutation_in 4 P); cbn; tauto | apply OW; cbn; tauto].
    - exists 4. split; [apply (Permutation_in 4 P); cbn; tauto | apply OW; cbn; tauto].
    - exists 0. split; [apply (Permutation_in 0 P); cbn; tauto | apply OW; cbn; tauto]. }
  destruct Examples_run3.C77_channel_splits as (V1 & V2). split; [exact MI|]. split; [exact SI|]. split; [exact BT|]. split; [exact OWN|]. split; [reflexivity|]. split; intros f32.
  - destruct (C95_domains f32 2 1 channel_file _ _ MI SI BT OWN V1) as (st & _ & E & _). exists st. exact E.
  - destruct (C95_domains f32 2 2 channel_file _ _ MI SI BT OWN V2) as (st & _ & E & _). exists st. exact E.
Qed.
Print Assumptions C95_channel.
(** with both directions periodic the labels are those of the torus of C90, and the domain is set up *)
Theorem C95_torus : labels_of_file CellsDict 2 true true false channel_file = Ok Examples_per.tor_labels /\
  exists st, setup_from_file Examples_periodic.single CellsDict 2 1 true true false channel_file [0; 0; 0; 0; 0; 0] [0; 0; 0; 0] = Ok st.
Proof.
  split; [reflexivity|]. destruct C95_channel as (MI & SI & BT & OWN & _). destruct (C95_periodic Examples_periodic.single 2 channel_file true true false MI SI BT OWN ltac:(discriminate)) as (labels & E & _ & _ & PM).
  assert (EL : labels = Examples_per.tor_labels) by (assert (X : labels_of_file CellsDict 2 true true false channel_file = Ok Examples_per.tor_labels) by reflexivity; congruence). subst labels.
  assert (PM' : periodic_mesh 2 (create_cell_nodeid channel_file) (mf_points channel_file) Examples_per.tor_labels Examples_periodic.single).
  { apply PM. intros a Ha Hp. cbn in Ha. destruct Ha as [<-|[<-|[]]]; [exists 2%R; exact Examples_per.tor_x | exists 1%R; exact Examples_per.tor_y]. }
  destruct (Properties_per.C90_setup Examples_periodic.single 2 (create_cell_nodeid channel_file) (mf_points channel_file) Examples_per.tor_labels [0; 0; 0; 0; 0; 0] [0; 0; 0; 0] PM') as (D & tc & ES & _).
  - apply sorted_split. exact (proj1 Examples_run3.C77_channel_splits).
  - eexists. unfold setup_from_file. rewrite E. exact ES.
Qed.
Print Assumptions C95_torus.
