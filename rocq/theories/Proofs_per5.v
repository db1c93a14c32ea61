(** * Proofs_per5: facing facets of a periodic mesh. *)
From Coq Require Import Reals Lra Permutation Sorted.
From Verif Require Import Py PyLemmas Model_part Spec_part Model_label Proofs_label Model_conn Spec_conn Proofs_conn1 Proofs_conn2 Model_geom Spec_geom Proofs_geom1 Proofs_geom2 Proofs_geom3
  Model_periodic Spec_periodic Model_interp Spec_interp Properties_interp Model_fvm Spec_fvm Proofs_fvm1 Proofs_fvm2 Model_bc Spec_bc Proofs_bc Proofs_bc2 Model_domain Spec_domain Proofs_domain1 Proofs_domain4 Model_parallel Spec_parallel Proofs_parallel1
  Properties_parallel Properties_fvm Model_comm Model_run Spec_run Proofs_run1 Proofs_run2 Proofs_run3 Proofs_run4 Proofs_run5 Proofs_run7.
From Verif Require Import Spec_per Proofs_per2 Proofs_per3.
Open Scope Z_scope.

Lemma find_unique {A} (p : A -> bool) l e : In e l -> p e = true -> (forall e', In e' l -> p e' = true -> e' = e) -> find p l = Some e.
Proof.
  induction l as [|x l IH]; intros HI HP HU; [destruct HI|]. cbn [find]. destruct (p x) eqn:E; [rewrite (HU x (or_introl eq_refl) E); reflexivity|]. destruct HI as [-> | HI]; [congruence|]. apply IH; [exact HI | exact HP|]. intros e' He'. apply HU. right. exact He'.
Qed.
Lemma same_but_iff a p q : same_but a p q = true <-> set_coord a p 0%R = set_coord a q 0%R.
Proof.
  unfold same_but. cbv zeta. destruct (Req_EM_T _ _) as [E1|N1]; [destruct (Req_EM_T _ _) as [E2|N2]; [destruct (Req_EM_T _ _) as [E3|N3]|]|]; (split; [intros X; try discriminate X | intros X]); try reflexivity; try (exfalso; rewrite X in *; congruence).
  revert E1 E2 E3. generalize (set_coord a p 0%R) as x, (set_coord a q 0%R) as y. intros [x1 x2 x3] [y1 y2 y3]. cbn [px py pz]. congruence.
Qed.
Lemma set_coord_twice a p x y : set_coord a (set_coord a p x) y = set_coord a p y. Proof. destruct a, p; reflexivity. Qed.
Lemma coord_set a p x : coord a (set_coord a p x) = x. Proof. destruct a, p; reflexivity. Qed.
Lemma same_coords a p q : coord a p = coord a q -> set_coord a p 0%R = set_coord a q 0%R -> p = q.
Proof. destruct p as [p1 p2 p3], q as [q1 q2 q3]. destruct a; cbn [coord set_coord px py pz]; intros -> E; injection E; intros; subst; reflexivity. Qed.
Lemma partner_low a : partner_label (low_label a) = high_label a /\ partner_label (high_label a) = low_label a /\ axis_of (low_label a) = a /\ axis_of (high_label a) = a.
Proof. destruct a; cbn; auto. Qed.
Lemma partner_plain dim l : (dim = 2 \/ dim = 3) -> 1 <= l <= 2 * dim -> partner_label l = 0.
Proof. intros Hd HL. unfold partner_label. repeat (match goal with |- context [?x =? ?y] => destruct (Z.eqb_spec x y); [lia|] end). reflexivity. Qed.
Lemma axis_labels dim l : (dim = 2 \/ dim = 3) -> is_periodic dim l = true -> exists a, In a (axes dim) /\ (l = low_label a \/ l = high_label a).
Proof.
  intros Hd. unfold is_periodic, is_x, is_y, is_z, axes. intros H. destruct Hd as [-> | ->]; cbn [Z.eqb Pos.eqb andb] in *; rewrite ?orb_false_r in H.
  - destruct (Z.eqb_spec l 11); [exists AX; cbn; auto|]. destruct (Z.eqb_spec l 22); [exists AX; cbn; auto|]. destruct (Z.eqb_spec l 33); [exists AY; cbn; auto|]. destruct (Z.eqb_spec l 44); [exists AY; cbn; auto | discriminate].
  - destruct (Z.eqb_spec l 11); [exists AX; cbn; auto|]. destruct (Z.eqb_spec l 22); [exists AX; cbn; auto|]. destruct (Z.eqb_spec l 33); [exists AY; cbn; auto|]. destruct (Z.eqb_spec l 44); [exists AY; cbn; auto|]. destruct (Z.eqb_spec l 55); [exists AZ; cbn; auto|]. destruct (Z.eqb_spec l 66); [exists AZ; cbn; auto | discriminate].
Qed.
Lemma label_periodic dim a : In a (axes dim) -> is_periodic dim (low_label a) = true /\ is_periodic dim (high_label a) = true.
Proof. unfold axes, is_periodic. destruct (dim =? 3); destruct a; cbn; intuition (try discriminate; auto). Qed.

Section Mesh.
Context (f32 : R -> R) (dim : Z) (cells : list (list Z)) (nodes : list pt) (labels : list Z).
Hypothesis PM : periodic_mesh dim cells nodes labels f32.
Notation VM := (VM1 f32 dim cells nodes labels PM).
Notation WF := (pm_mesh _ _ _ _ _ PM).
Notation Hd := (wm_dim _ _ _ (pm_mesh _ _ _ _ _ PM)).
Notation lab := (flabel dim labels).
Notation ctr := (centre_of nodes).
Notation only := (only_cell dim cells).
Notation per a L := (periodic_direction dim cells nodes labels f32 a L).

Lemma in_bd c F : In (c, F) (boundary_facets cells) <-> only c F. Proof. apply (Proofs_run7.in_boundary dim cells nodes (ones nodes) VM). Qed.
Lemma only_len c F : only c F -> 0 < zlen F. Proof. intros ((_ & _ & E & _) & _). pose proof Hd. lia. Qed.
Lemma only_same c c' F : only c F -> only c' F -> c = c'. Proof. intros (H & _) (_ & U). apply U. exact H. Qed.
Lemma low_plane a L c F : per a L -> only c F -> lab F = low_label a -> coord a (ctr F) = 0%R.
Proof. intros PD OF E. destruct (pd_low _ _ _ _ _ _ _ PD c F OF E) as (c' & G & _ & _ & T). exact (proj1 (translate_across nodes a L F G (only_len _ _ OF) T)). Qed.
Lemma high_plane a L c G : per a L -> only c G -> lab G = high_label a -> coord a (ctr G) = L.
Proof. intros PD OG E. destruct (pd_high _ _ _ _ _ _ _ PD c G OG E) as (c' & F & OF & _ & T). rewrite (proj2 (translate_across nodes a L F G (only_len _ _ OF) T)). apply coord_set. Qed.
Lemma same_facet a L c F c' G : per a L -> only c F -> only c' G -> lab F = lab G -> lab F = low_label a \/ lab F = high_label a -> set_coord a (ctr F) 0%R = set_coord a (ctr G) 0%R -> (c, F) = (c', G).
Proof.
  intros PD OF OG EL HL ES. assert (EC : ctr F = ctr G). { apply (same_coords a); [|exact ES]. destruct HL as [E|E]; [rewrite (low_plane a L c F), (low_plane a L c' G) by (assumption || congruence) | rewrite (high_plane a L c F), (high_plane a L c' G) by (assumption || congruence)]; reflexivity. }
  assert (EF : F = G) by (apply (pd_distinct _ _ _ _ _ _ _ PD c F c' G); try assumption; rewrite EC; split; [|split]; reflexivity). subst G. rewrite (only_same c c' F OF OG). reflexivity.
Qed.
Lemma across_ok a L c F c' G : per a L -> only c F -> only c' G -> lab F = low_label a -> lab G = high_label a -> Spec_periodic.across a L (ctr F) (ctr G) ->
  across_domain dim cells nodes labels F = Some (c', G) /\ across_domain dim cells nodes labels G = Some (c, F).
Proof.
  intros PD OF OG EF EG (C0 & CG). destruct (partner_low a) as (P1 & P2 & P3 & P4). assert (ES : set_coord a (ctr F) 0%R = set_coord a (ctr G) 0%R) by (rewrite CG, set_coord_twice; reflexivity).
  split; apply find_unique; cbn [snd].
  - apply in_bd. exact OG.
  - unfold faces. rewrite EF, P1, P3, EG, Z.eqb_refl. cbn [andb]. apply same_but_iff. exact ES.
  - intros (d, H) HI HP. cbn [snd] in HP. unfold faces in HP. rewrite EF, P1, P3 in HP. apply andb_prop in HP as (H1 & H2). apply Z.eqb_eq in H1. apply (proj1 (same_but_iff _ _ _)) in H2. apply in_bd in HI. apply (same_facet a L); try assumption; [congruence | right; exact H1 | congruence].
  - apply in_bd. exact OF.
  - unfold faces. rewrite EG, P2, P4, EF, Z.eqb_refl. cbn [andb]. apply same_but_iff. symmetry. exact ES.
  - intros (d, H) HI HP. cbn [snd] in HP. unfold faces in HP. rewrite EG, P2, P4 in HP. apply andb_prop in HP as (H1 & H2). apply Z.eqb_eq in H1. apply (proj1 (same_but_iff _ _ _)) in H2. apply in_bd in HI. apply (same_facet a L); try assumption; [congruence | left; exact H1 | congruence].
Qed.
(** a facet on a plain side faces nothing *)
Lemma across_plain c F : only c F -> 1 <= lab F <= 2 * dim -> across_domain dim cells nodes labels F = None.
Proof.
  intros OF HL. unfold across_domain. destruct (find _ _) as [(d, G)|] eqn:E; [|reflexivity]. exfalso. apply find_some in E as (HI & HP). cbn [snd] in HP. unfold faces in HP. apply andb_prop in HP as (H1 & _). apply Z.eqb_eq in H1. apply in_bd in HI.
  pose proof Hd as Hd'. assert (P0 : partner_label (lab F) = 0). { unfold partner_label. repeat (match goal with |- context [?x =? ?y] => destruct (Z.eqb_spec x y); [lia|] end). reflexivity. } rewrite P0 in H1.
  destruct (pm_boundary _ _ _ _ _ PM d G HI) as [B|B]; [lia|]. rewrite H1 in B. unfold is_periodic, is_x, is_y, is_z in B. destruct (dim =? 3); discriminate.
Qed.

(** ** area vectors *)
Lemma area_translate a L F G : In a (axes dim) -> zlen F = dim -> Forall2 (fun k k' => Spec_periodic.across a L (at_node nodes k) (at_node nodes k')) F G ->
  area_vector nodes G = area_vector nodes F /\ forall w, vdot (area_vector nodes F) w = (coord a (area_vector nodes F) * coord a w)%R.
Proof.
  intros Ha HL HF. unfold axes in Ha. pose proof Hd as [E|E]; rewrite E in HL, Ha; cbn [Z.eqb Pos.eqb In] in Ha.
  - destruct (list2 _ HL) as (x & y & ->). inversion HF as [|? x' ? ? AX1 HF1]; subst. inversion HF1 as [|? y' ? ? AX2 HF2]; subst. inversion HF2; subst. unfold area_vector. cbn [map]. revert AX1 AX2.
    generalize (at_node nodes x) as p, (at_node nodes x') as p', (at_node nodes y) as q, (at_node nodes y') as q'. intros [p1 p2 p3] p' [q1 q2 q3] q' (A1 & ->) (B1 & ->). destruct Ha as [<- | [<- | []]]; cbn [coord set_coord px py pz] in *; subst.
    + split; [f_equal; ring|]. intros [w1 w2 w3]. unfold vdot. cbn [coord px py pz]. ring.
    + split; [f_equal; ring|]. intros [w1 w2 w3]. unfold vdot. cbn [coord px py pz]. ring.
  - destruct (list3 _ HL) as (x & y & z & ->). inversion HF as [|? x' ? ? AX1 HF1]; subst. inversion HF1 as [|? y' ? ? AX2 HF2]; subst. inversion HF2 as [|? z' ? ? AX3 HF3]; subst. inversion HF3; subst. unfold area_vector. cbn [map]. revert AX1 AX2 AX3.
    generalize (at_node nodes x) as p, (at_node nodes x') as p', (at_node nodes y) as q, (at_node nodes y') as q', (at_node nodes z) as r, (at_node nodes z') as r'. intros [p1 p2 p3] p' [q1 q2 q3] q' [r1 r2 r3] r' (A1 & ->) (B1 & ->) (C1 & ->).
    destruct Ha as [<- | [<- | [<- | []]]]; cbn [coord set_coord px py pz] in *; subst; unfold vsub, vscal; cbn [coord px py pz]; (split; [f_equal; ring|]); intros [w1 w2 w3]; unfold vdot; cbn [coord px py pz]; ring.
Qed.
Lemma opposite_outward a L c F c' G : In a (axes dim) -> per a L -> only c F -> only c' G -> translate nodes a L F G -> outward cells nodes c' G = vscal (-1) (outward cells nodes c F).
Proof.
  intros Ha PD OF OG (G' & PG & FA). pose proof (proj1 OF) as HF. pose proof (proj1 OG) as HG. pose proof (proj1 (proj2 (proj2 HF))) as LF.
  destruct (area_translate a L F G' Ha LF FA) as (EA & PAR). set (v := area_vector nodes F) in *.
  destruct (outward_ok dim cells nodes WF (pm_nonflat _ _ _ _ _ PM) c F HF) as (W1 & W2). pose proof (outward_ok dim cells nodes WF (pm_nonflat _ _ _ _ _ PM) c' G HG) as OW.
  apply (outward_of_perm nodes _ G G' _ (Permutation_sym PG)) in OW. destruct OW as (V1 & V2). rewrite EA in V1. fold v in V1.
  set (w := outward cells nodes c F) in *. set (w' := outward cells nodes c' G) in *. fold v in W1.
  destruct (Proofs_parallel1.opposite_node dim cells nodes WF c F HF) as (x & _ & X1 & X2). destruct (Proofs_parallel1.opposite_node dim cells nodes WF c' G HG) as (y & _ & Y1 & Y2).
  assert (BOX : forall d k, iscell cells d -> In k (cell cells d) -> (0 <= coord a (at_node nodes k) <= L)%R). { intros d k Hc Hk. apply (pd_box _ _ _ _ _ _ _ PD). apply nthZ_In. apply (wm_rows _ _ _ WF (cell cells d)); [apply nthZ_In; exact Hc | exact Hk]. }
  pose proof (BOX c x (proj1 HF) X1) as BX. pose proof (BOX c' y (proj1 HG) Y1) as BY.
  destruct F as [|p F0]; [pose proof Hd; cbn in LF; lia|]. inversion FA as [|? q ? G0 (AP & AQ) FA']; subst.
  specialize (W2 x p X1 X2 (or_introl eq_refl)). specialize (V2 y q Y1 ltac:(intros X; apply Y2; exact (Permutation_in y PG X)) (or_introl eq_refl)).
  assert (PR : forall u, u = v \/ u = vscal (-1) v -> forall z, vdot u z = (coord a u * coord a z)%R).
  { intros u [-> | ->] z; [apply PAR|]. replace (vdot (vscal (-1) v) z) with (- vdot v z)%R by (unfold vdot, vscal; cbn [px py pz]; ring). rewrite PAR. destruct a; unfold vscal; cbn [coord px py pz]; ring. }
  rewrite (PR w W1) in W2. rewrite (PR w' V1) in V2.
  assert (CS : forall s t, coord a (vsub s t) = (coord a s - coord a t)%R) by (intros; destruct a; reflexivity). rewrite CS, AP in W2. rewrite CS, AQ, coord_set in V2.
  assert (S1 : (coord a w < 0)%R). { destruct (Rlt_dec (coord a w) 0) as [H|H]; [exact H|]. exfalso. assert (0 <= coord a w * (coord a (at_node nodes x) - 0))%R by (apply Rmult_le_pos; lra). lra. }
  assert (S2 : (0 < coord a w')%R). { destruct (Rlt_dec 0 (coord a w')) as [H|H]; [exact H|]. exfalso. assert (0 <= (- coord a w') * (L - coord a (at_node nodes y)))%R by (apply Rmult_le_pos; lra). lra. }
  assert (NG : vscal (-1) (vscal (-1) v) = v) by (clear; destruct v as [v1 v2 v3]; unfold vscal; cbn [px py pz]; f_equal; ring).
  destruct W1 as [E1|E1], V1 as [E2|E2]; rewrite E1, E2 in *; try reflexivity; try (symmetry; exact NG); exfalso; lra.
Qed.
(** a periodic facet: the facet it faces *)
Lemma partner c F : only c F -> is_periodic dim (lab F) = true -> exists c' G, only c' G /\ is_periodic dim (lab G) = true /\
  across_domain dim cells nodes labels F = Some (c', G) /\ across_domain dim cells nodes labels G = Some (c, F) /\ outward cells nodes c' G = vscal (-1) (outward cells nodes c F).
Proof.
  intros OF HP. destruct (axis_labels dim _ Hd HP) as (a & Ha & EL). destruct (label_periodic dim a Ha) as (Q1 & Q2).
  destruct (pm_directions _ _ _ _ _ PM a Ha) as [(PP & _)|(L & PD)]; [exfalso; destruct (PP c F OF); destruct EL; auto|]. destruct EL as [E|E].
  - destruct (pd_low _ _ _ _ _ _ _ PD c F OF E) as (c' & G & OG & EG & T). exists c', G. rewrite EG. destruct (across_ok a L c F c' G PD OF OG E EG (translate_across nodes a L F G (only_len _ _ OF) T)). pose proof (opposite_outward a L c F c' G Ha PD OF OG T). auto.
  - destruct (pd_high _ _ _ _ _ _ _ PD c F OF E) as (c' & G & OG & EG & T). exists c', G. rewrite EG. destruct (across_ok a L c' G c F PD OG OF EG E (translate_across nodes a L G F (only_len _ _ OG) T)). pose proof (opposite_outward a L c' G c F Ha PD OG OF T) as EO.
    rewrite EO. replace (vscal (-1) (vscal (-1) (outward cells nodes c' G))) with (outward cells nodes c' G) by (destruct (outward cells nodes c' G) as [v1 v2 v3]; unfold vscal; cbn [px py pz]; f_equal; ring). auto.
Qed.
Lemma partner_zero c F : only c F -> (partner_label (lab F) =? 0) = negb (is_periodic dim (lab F)).
Proof.
  intros OF. pose proof Hd as Hd'. destruct (is_periodic dim (lab F)) eqn:HP.
  - destruct (axis_labels dim _ Hd HP) as (a & _ & [-> | ->]); destruct a; reflexivity.
  - destruct (pm_boundary _ _ _ _ _ PM c F OF) as [B|B]; [|congruence]. rewrite (partner_plain dim _ Hd B). reflexivity.
Qed.
End Mesh.
