(** * Proofs_poisson2: the faces of the linear system of a rank and the facets of the mesh. *)
From Coq Require Import Reals Lra Permutation Sorted.
From Verif Require Import Py PyLemmas Model_part Spec_part Model_label Model_conn Spec_conn Proofs_conn1 Proofs_conn2 Model_geom Spec_geom Proofs_geom1 Proofs_geom2 Proofs_geom3
  Model_halo Spec_halo Model_interp Spec_interp Proofs_interp4 Proofs_interp5 Proofs_interp6 Spec_lsq Proofs_lsq Properties_lsq Model_fvm Spec_fvm Proofs_fvm1 Proofs_fvm2 Properties_fvm Model_bc Spec_bc Spec_bc3 Proofs_label Proofs_bc Proofs_bc2 Proofs_bc3 Properties_bc3 Model_domain Spec_domain Proofs_domain1 Proofs_domain4
  Model_comm Model_parallel Spec_parallel Proofs_parallel1 Proofs_parallel6 Properties_parallel Model_run Spec_run Proofs_run1 Proofs_run2 Proofs_run3 Proofs_run4 Proofs_run5 Proofs_run6 Spec_run2 Model_run2 Proofs_run7 Proofs_run8 Proofs_run9 Proofs_run10 Proofs_run11 Proofs_run12 Proofs_run13 Proofs_run14 Proofs_run15 Spec_run3 Proofs_run16 Model_poisson Spec_poisson.
From Verif Require Model_linsys Spec_linsys Properties_linsys Proofs_periodic.
Open Scope Z_scope.

Lemma label_inj dim l l' : In l (sides dim) -> In l' (sides dim) -> side_label l = side_label l' -> l = l'.
Proof. unfold sides. destruct (dim =? 3); cbn [In]; intros H H'; repeat (destruct H as [<-|H]; [repeat (destruct H' as [<-|H']; [first [reflexivity | cbn [side_label]; lia]|]); destruct H'|]); destruct H. Qed.
(** a list without repetitions inside a range *)
Lemma range_part l n : NoDup l -> (forall x, In x l -> 0 <= x < n) -> Permutation l (filter (fun x => mem x l) (range n)).
Proof.
  intros ND H. apply NoDup_Permutation; [exact ND | apply NoDup_filter, NoDup_range|]. intros x. rewrite filter_In, in_range, mem_In. split; [intros Hx; split; [apply H; exact Hx | exact Hx] | tauto].
Qed.
Lemma rsum_part (g : Z -> R) l n : NoDup l -> (forall x, In x l -> 0 <= x < n) -> rsum (map g l) = rsum (map (fun x => if mem x l then g x else 0%R) (range n)).
Proof. intros ND H. rewrite (rsum_perm _ _ (Permutation_map g (range_part l n ND H))). apply rsum_filter. Qed.

Section Fixed.
Context (dim : Z) (bc : list (loc * bctype)) (vs : list (loc * bcval)).
Hypothesis BV : bc_valid dim bc vs.
Lemma fixed_some s l p : In (s, BDirichlet) bc -> side_label s = l -> fixed bc vs l p = Some (prescribed_at vs s p).
Proof.
  intros Hin El. destruct BV as (ND & TY & _). unfold fixed. destruct (find _ bc) as [(s', t)|] eqn:EF.
  - apply find_some in EF as (HI & HE). cbn [fst] in HE. apply Z.eqb_eq in HE. assert (s' = s) by (apply (label_inj dim); [apply (TY _ _ HI) | apply (TY _ _ Hin) | congruence]). subst s'.
    assert (t = BDirichlet). { clear - ND HI Hin. induction bc as [|(a, b) q IH]; [destruct HI|]. cbn [map fst] in ND. inversion ND as [|? ? NI ND']; subst. destruct HI as [E1|HI], Hin as [E2|Hin]; [congruence | | | exact (IH Hin ND' HI)].
      - exfalso. apply NI. injection E1 as -> ->. apply in_map_iff. exists (s, BDirichlet). auto.
      - exfalso. apply NI. injection E2 as -> ->. apply in_map_iff. exists (s, t). auto. }
    subst t. reflexivity.
  - exfalso. pose proof (find_none _ _ EF _ Hin) as Y. cbv beta in Y. cbn [fst] in Y. lia.
Qed.
Lemma fixed_none l p : (forall s, In (s, BDirichlet) bc -> side_label s <> l) -> fixed bc vs l p = None.
Proof.
  intros H. unfold fixed. destruct (find _ bc) as [(s', t)|] eqn:EF; [|reflexivity]. apply find_some in EF as (HI & HE). cbn [fst] in HE. apply Z.eqb_eq in HE. destruct t; try reflexivity. exfalso. exact (H s' HI HE).
Qed.
Lemma fixed_cases l : (exists s, In (s, BDirichlet) bc /\ side_label s = l /\ forall p, fixed bc vs l p = Some (prescribed_at vs s p)) \/ ((forall s, In (s, BDirichlet) bc -> side_label s <> l) /\ forall p, fixed bc vs l p = None).
Proof.
  destruct (find (fun e => (side_label (fst e) =? l) && match snd e with BDirichlet => true | _ => false end) bc) as [(s, t)|] eqn:EF.
  - left. apply find_some in EF as (HI & HE). cbn [fst snd] in HE. apply andb_prop in HE as (HE & HT). destruct t; try discriminate HT. apply Z.eqb_eq in HE. exists s. split; [exact HI|]. split; [exact HE|]. intros p. apply fixed_some; assumption.
  - right. assert (N : forall s, In (s, BDirichlet) bc -> side_label s <> l) by (intros s Hs E; pose proof (find_none _ _ EF _ Hs) as Y; cbv beta in Y; cbn [fst snd] in Y; rewrite E, Z.eqb_refl in Y; discriminate Y). split; [exact N|]. intros p. apply fixed_none. exact N.
Qed.
End Fixed.

Section Rank2.
Context (dim : Z) (cells : list (list Z)) (nodes : list pt) (labels epart : list Z) (r : Z) (D : domain).
Hypothesis VM : valid_mesh dim cells nodes labels.
Hypothesis PL : dim = 2 -> planar nodes.
Hypothesis PA : part_of dim cells nodes labels epart r D.
Hypothesis CS : consistent dim D.
Context (bc : list (loc * bctype)) (vs : list (loc * bcval)).
Hypothesis BV : bc_valid dim bc vs.
Context (w : list R) (v : variable).
Hypothesis FV : vfull (dom_bc D) bc vs w v.
Notation WF := (vm_mesh _ _ _ _ VM).
Notation gc := (gcell D).
Notation S := (sys_of D v).
Notation L := (lists_of D v).
Notation name f := (nthZ 0 (dm_name D) f).

Lemma names_len : zlen (dm_name D) = zlen (dm_cellid D) /\ zlen (dm_cellid D) = zlen (dm_facenodes D).
Proof. destruct (pa_sizes _ _ _ _ _ _ _ PA) as (_ & _ & _ & _ & E & _). split; [|exact E]. exact (proj1 (proj2 (proj2 (wfa_len _ _ (proj1 (cs_faces _ _ CS)))))). Qed.
Lemma name_cases f : isface D f -> name f = 0 \/ name f = 10 \/ 1 <= name f <= 2 * dim.
Proof.
  intros Hf. destruct (pa_faces _ _ _ _ _ _ _ PA f Hf) as (c & F & HF & _ & HG). destruct (pa_kinds _ _ _ _ _ _ _ PA f c _ HF HG) as [a b Ca Cb two sides row nm | a Ca one row nm label | a Ca Hh other sides row nm]; auto.
Qed.
Lemma in_inner_face f : In f (Model_linsys.sl_inner L) <-> isface D f /\ name f = 0.
Proof.
  pose proof (wm_dim _ _ _ WF) as Hd. destruct names_len as (E1 & E2). unfold lists_of, dom_syslists, face_lists. cbn [Model_linsys.sl_inner Model_label.fl_inner fl_pin fl_pupper fl_pfront]. rewrite np_sort_In, !in_app_iff. rewrite !In_where. unfold isface. rewrite E1, E2.
  split; [|intros H; left; exact H]. intros [H|[(H & N)|[(H & N)|H]]]; [exact H | | |].
  - exfalso. destruct (name_cases f H) as [Y|[Y|Y]]; lia.
  - exfalso. destruct (name_cases f H) as [Y|[Y|Y]]; lia.
  - exfalso. destruct (dm_dim D =? 3); [|destruct H]. apply In_where in H as (H & N). rewrite E1, E2 in H. destruct (name_cases f H) as [Y|[Y|Y]]; lia.
Qed.
Lemma in_halo_face f : In f (Model_linsys.sl_halo L) <-> isface D f /\ name f = 10.
Proof. destruct names_len as (E1 & E2). unfold lists_of, dom_syslists, face_lists. cbn [Model_linsys.sl_halo Model_label.fl_halo]. rewrite In_where. unfold isface. rewrite E1, E2. reflexivity. Qed.
Lemma in_dir_face f : In f (Model_linsys.sl_dir L) <-> isface D f /\ exists l, In (l, BDirichlet) bc /\ name f = side_label l.
Proof.
  destruct names_len as (E1 & E2). unfold lists_of, dom_syslists. cbn [Model_linsys.sl_dir]. destruct (full_lists _ _ _ _ _ FV) as (-> & _). rewrite np_sort_In. unfold dir_faces. rewrite in_flat_map. split.
  - intros ((l, t) & Hin & Hf). cbn [fst snd] in Hf. destruct t; try destruct Hf. apply bc_faces_in in Hf as (Hf & En). unfold face_name in En. cbn [dom_bc bd_name] in Hf, En. split; [unfold isface; lia|]. exists l. split; assumption.
  - intros (Hf & l & Hin & En). exists (l, BDirichlet). split; [exact Hin|]. cbn [fst snd]. apply bc_faces_in. unfold face_name. cbn [dom_bc bd_name]. unfold isface in Hf. split; [lia | exact En].
Qed.
Lemma dirichlet_label f l : In (l, BDirichlet) bc -> name f = side_label l -> 1 <= name f <= 2 * dim.
Proof.
  intros Hin En. pose proof (wm_dim _ _ _ WF) as Hd. destruct BV as (_ & TY & _). destruct (TY _ _ Hin) as (Hl & _). rewrite En. unfold sides in Hl. destruct (Z.eqb_spec dim 3) as [->|]; cbn [In] in Hl; repeat (destruct Hl as [<-|Hl]; [cbn [side_label]; lia|]); destruct Hl.
Qed.
Lemma inner_once : NoDup (Model_linsys.sl_inner L).
Proof.
  apply (Permutation_NoDup (l := where_eq (dm_name D) 0)); [|apply Proofs_periodic.where_NoDup].
  unfold lists_of, dom_syslists, face_lists. cbn [Model_linsys.sl_inner Model_label.fl_inner fl_pin fl_pupper fl_pfront]. apply Permutation_sym. etransitivity; [apply np_sort_perm|].
  assert (N : forall a, 10 < a -> where_eq (dm_name D) a = []). { intros a Ha. destruct (where_eq (dm_name D) a) as [|f q] eqn:E; [reflexivity|]. exfalso. assert (X : In f (where_eq (dm_name D) a)) by (rewrite E; left; reflexivity). apply In_where in X as (X & Y). destruct names_len as (E1 & E2). pose proof (wm_dim _ _ _ WF) as Hd. destruct (name_cases f ltac:(unfold isface; lia)) as [Z1|[Z1|Z1]]; lia. }
  rewrite (N 11), (N 33), (N 55) by lia. destruct (dm_dim D =? 3); rewrite !app_nil_r; apply Permutation_refl.
Qed.
Lemma halo_once : NoDup (Model_linsys.sl_halo L).
Proof. apply Proofs_periodic.where_NoDup. Qed.
Lemma dir_once : NoDup (Model_linsys.sl_dir L).
Proof.
  unfold lists_of, dom_syslists. cbn [Model_linsys.sl_dir]. destruct (full_lists _ _ _ _ _ FV) as (-> & _). apply (Permutation_NoDup (Permutation_sym (np_sort_perm _))). destruct BV as (ND & TY & _). unfold dir_faces. apply NoDup_flat_map.
  - apply NoDup_map_inv in ND. exact ND.
  - intros (l, t) _. cbn [fst snd]. destruct t; try constructor. apply Proofs_periodic.where_NoDup.
  - intros (l, t) (l', t') f Hx Hy Hf Hf'. cbn [fst snd] in Hf, Hf'. destruct t; try destruct Hf. destruct t'; try destruct Hf'. apply bc_faces_in in Hf as (_ & E1). apply bc_faces_in in Hf' as (_ & E2). f_equal. apply (label_inj dim); [apply (TY _ _ Hx) | apply (TY _ _ Hy) | congruence].
Qed.

(** the fluxes through the faces of the system leave the cells through their facets *)
Definition system_flux (flux : Z -> R) (f : Z) : R := if (name f =? 0) || (name f =? 10) || mem f (Model_linsys.sl_dir L) then flux f else 0%R.
Lemma leaving_faces flux i : Spec_linsys.leaving S L flux i = rsum (map (leaves (dom_fv D) (system_flux flux) i) (all_faces (dom_lists D))).
Proof.
  rewrite (rsum_perm _ _ (Permutation_map _ (cs_each_face_once _ _ CS))). unfold Spec_linsys.leaving. destruct names_len as (E1 & E2). pose proof (wm_dim _ _ _ WF) as Hd.
  rewrite (rsum_part _ _ (zlen (dm_cellid D)) inner_once) by (intros f Hf; apply in_inner_face in Hf as (Hf & _); unfold isface in Hf; lia).
  rewrite (rsum_part _ _ (zlen (dm_cellid D)) halo_once) by (intros f Hf; apply in_halo_face in Hf as (Hf & _); unfold isface in Hf; lia).
  rewrite (rsum_part _ _ (zlen (dm_cellid D)) dir_once) by (intros f Hf; apply in_dir_face in Hf as (Hf & _); unfold isface in Hf; lia).
  rewrite <- !rsum_map_add. apply rsum_map_ext. intros f Hf. apply in_range in Hf. assert (If : isface D f) by (unfold isface; lia).
  unfold leaves, system_flux. unfold fv_label, cell0, cell1. cbn [dom_fv fv_name fv_cellid]. unfold Spec_linsys.left_cell, Spec_linsys.right_cell. cbn [sys_of dom_sys Model_linsys.sy_G dom_face fd_cellid].
  assert (Mi : mem f (Model_linsys.sl_inner L) = (name f =? 0)). { apply Bool.eq_iff_eq_true. rewrite mem_In, in_inner_face, Z.eqb_eq. tauto. }
  assert (Mh : mem f (Model_linsys.sl_halo L) = (name f =? 10)). { apply Bool.eq_iff_eq_true. rewrite mem_In, in_halo_face, Z.eqb_eq. tauto. }
  assert (Md : mem f (Model_linsys.sl_dir L) = true -> 1 <= name f <= 2 * dim). { rewrite mem_In, in_dir_face. intros (_ & l & Hl & En). exact (dirichlet_label f l Hl En). }
  rewrite Mi, Mh. destruct (mem f (Model_linsys.sl_dir L)) eqn:Ed.
  - specialize (Md eq_refl). replace (name f =? 0) with false by lia. replace (name f =? 10) with false by lia. cbn [orb andb]. ring.
  - destruct (Z.eqb_spec (name f) 0) as [E0|N0]; [rewrite E0; cbn [Z.eqb orb andb]; ring|]. destruct (name f =? 10); cbn [orb andb]; [ring|]. destruct (_ =? i); ring.
Qed.
End Rank2.
