(** * Proofs_periodic2: C63-C65, all directions together *)
From Coq Require Import Reals Lra Sorted.
From Verif Require Import Py PyLemmas Model_part Model_label Model_conn Model_geom Model_halo Model_periodic Spec_geom Spec_interp Spec_periodic
  Proofs_label Proofs_conn1 Proofs_conn3 Proofs_interp1 Proofs_bc Proofs_periodic.
Open Scope Z_scope.

Lemma absent_where a name : absent a name -> where_eq name (first_label a) = [] /\ where_eq name (second_label a) = [].
Proof.
  assert (G : forall l, ~ In l name -> where_eq name l = []).
  { intros l N. destruct (where_eq name l) as [|f r] eqn:E; [reflexivity|]. exfalso. assert (H : In f (where_eq name l)) by (rewrite E; left; reflexivity). apply In_where in H. destruct H as (H & <-). apply N. apply nthZ_In; exact H. }
  intros (A & B). destruct a; cbn in *; split; apply G; assumption.
Qed.
Lemma nonempty_pos {A} (l : list A) : 0 < zlen l -> l <> []. Proof. intros H ->. cbn in H. lia. Qed.
Lemma direction_absent f32 I a jloop name nodename s : not_periodic name nodename a -> 0 < zlen (pi_fcenter I) -> 0 < zlen (pi_vertex I) ->
  direction f32 I a jloop (where_eq name (first_label a)) (where_eq name (second_label a)) (where_eq nodename (first_label a)) (where_eq nodename (second_label a)) s = Ok s.
Proof.
  intros (A & B) H1 H2. destruct (absent_where _ _ A) as (-> & ->). destruct (absent_where _ _ B) as (-> & ->). unfold direction, face_dict, node_dict, node_dict_nojloop. cbn [foldM bind].
  destruct (max_reaches a (pi_vertex I)) as (L1 & -> & _); [apply nonempty_pos; exact H2|]. destruct (max_reaches a (pi_fcenter I)) as (L2 & -> & _); [apply nonempty_pos; exact H1|]. cbn [bind].
  destruct jloop; cbn [bind]; destruct s; reflexivity.
Qed.

Section Run.
Context (f32 : R -> R) (I : pinput) (n nn : Z) (name nodename : list Z) (cellid : list (list Z)) (ghost : list (list nodeghost)).
Context (WF : wf_periodic n nn I cellid ghost name nodename).
Let nf := zlen name.
Let cell (f : Z) : Z := cell_of cellid f.

Record inv (s : pstate) : Prop := {
  iv_sized : sized n nf s; iv_rows : forall f, 0 <= f < nf -> zlen (nthZ [] (ps_cellid s) f) = 2 /\ c0 s f = cell f; iv_node : zlen (ps_node s) = nn; iv_ghost : zlen (ps_ghost s) = nn }.

(** all pairs of faces (nodes) of direction a, either way round *)
Definition partner (a : axis) (pts : list pt) (nm : list Z) (i j : Z) : Prop := exists L, periodic_axis f32 I name nodename a L /\ (facing a L pts nm i j \/ facing a L pts nm j i).

Record stepR (a : axis) (jloop : bool) (s s' : pstate) : Prop := {
  sr_inv : inv s';
  sr_face : forall f f', partner a (pi_fcenter I) name f f' -> nthZ [] (ps_cellid s') f = [cell f; cell f'];
  sr_face_other : forall f, 0 <= f < nf -> nthZ 0 name f <> low_label a -> nthZ 0 name f <> high_label a -> nthZ [] (ps_cellid s') f = nthZ [] (ps_cellid s) f;
  sr_nid : forall c x, 0 <= c < n -> (In x (nthZ [] (ps_nid s') c) <-> In x (nthZ [] (ps_nid s) c) \/ exists f f', partner a (pi_fcenter I) name f f' /\ cell f = c /\ beside I (cell f') x);
  sr_node : jloop = true -> forall i j, partner a (pi_vertex I) nodename i j -> nthZ [] (ps_node s') i = nthZ [] (ps_node s) i ++ counted (nthZ [] (pi_nodecell I) j);
  sr_node_second : forall i j, partner a (pi_vertex I) nodename i j -> nthZ 0 nodename i = second_label a -> nthZ [] (ps_node s') i = nthZ [] (ps_node s) i ++ counted (nthZ [] (pi_nodecell I) j);
  sr_node_first : jloop = false -> forall i j, partner a (pi_vertex I) nodename i j -> nthZ 0 nodename i = first_label a -> exists k, 0 <= k < zlen (nthZ [] (pi_nodecell I) j) - 1 /\ nthZ [] (ps_node s') i = nthZ [] (ps_node s) i ++ [nthZ 0 (nthZ [] (pi_nodecell I) j) k];
  sr_node_other : forall i, 0 <= i < nn -> nthZ 0 nodename i <> low_label a -> nthZ 0 nodename i <> high_label a -> nthZ [] (ps_node s') i = nthZ [] (ps_node s) i /\ nthZ [] (ps_ghost s') i = nthZ [] (ps_ghost s) i;
  sr_ghost : forall i j, partner a (pi_vertex I) nodename i j -> nthZ [] (ps_ghost s') i = [no_ghost] }.

Lemma labelled_in nm l i : labelled nm l i -> In l nm. Proof. intros (H & <-). apply nthZ_In; exact H. Qed.
Lemma partner_absent a pts nm i j : absent a nm -> ~ partner a pts nm i j.
Proof. intros (A & B) (L & _ & [(H & _)|(H & _)]); apply A; eapply labelled_in; exact H. Qed.
Lemma reaches_unique a L L' l : reaches a L l -> reaches a L' l -> L = L'.
Proof. intros (A & p & Hp & Ep) (B & q & Hq & Eq). pose proof (A q Hq). pose proof (B p Hp). lra. Qed.
Lemma partner_pair2 a L pts nm i j : periodic_axis f32 I name nodename a L -> partner a pts nm i j <-> pair2 a L pts nm i j \/ pair2 a L pts nm j i.
Proof.
  intros P. rewrite pair2_facing. split.
  - intros (L' & P' & H). rewrite (reaches_unique a L L' (pi_vertex I)); [exact H | apply P | apply P'].
  - intros H. exists L. auto.
Qed.
Lemma first_second a : first_label a <> second_label a. Proof. destruct a; discriminate. Qed.

Lemma step_absent a jloop s : not_periodic name nodename a -> inv s -> stepR a jloop s s.
Proof.
  intros (A & B) H. split.
  - exact H.
  - intros f f' P. destruct (partner_absent _ _ _ _ _ A P).
  - reflexivity.
  - intros c x _. split; [left; assumption | intros [X|(f & f' & P & _)]; [exact X | destruct (partner_absent _ _ _ _ _ A P)]].
  - intros _ f f' P. destruct (partner_absent _ _ _ _ _ B P).
  - intros f f' P. destruct (partner_absent _ _ _ _ _ B P).
  - intros _ f f' P. destruct (partner_absent _ _ _ _ _ B P).
  - auto.
  - intros f f' P. destruct (partner_absent _ _ _ _ _ B P).
Qed.

Lemma step_periodic a jloop L s : periodic_axis f32 I name nodename a L -> inv s ->
  exists s', direction f32 I a jloop (where_eq name (first_label a)) (where_eq name (second_label a)) (where_eq nodename (first_label a)) (where_eq nodename (second_label a)) s = Ok s' /\
    stepR a jloop s s' /\ exists s1 s2, after_faces a L I n nf name s s1 s2 /\ ps_shift s' = ps_shift s2.
Proof.
  intros PA [SZ HR HN HG]. destruct WF. 
  destruct (direction_ok f32 I a L jloop name nodename n nf nn s) as (s1 & s2 & s' & ls1 & ls2 & s3 & E & (cp1 & cp2 & D1 & D2 & HC) & N1 & N2 & HL); try assumption; try reflexivity; try (symmetry; assumption).
  { intros f Hf. destruct (HR f Hf) as (A & B). split; [exact A|]. rewrite B. apply wp_rows; exact Hf. }
  exists s'. split; [exact E|].
  assert (InF : forall l f, In f (where_eq name l) <-> labelled name l f) by (intros; apply In_where).
  assert (InN : forall l f, In f (where_eq nodename l) <-> labelled nodename l f) by (intros; apply In_where).
  destruct (nd_other _ _ _ _ _ N1) as (O1 & O2 & O3 & O4). destruct (nd_other _ _ _ _ _ N2) as (Q1 & Q2 & Q3 & Q4).
  assert (C0 : forall f, 0 <= f < nf -> c0 s f = cell f) by (intros f Hf; apply HR; exact Hf).
  assert (C1 : forall f, 0 <= f < nf -> c0 s1 f = cell f).
  { intros f Hf. destruct (fd_cellid _ _ _ _ _ _ _ _ _ D1 f Hf) as (A & B). rewrite <- (C0 f Hf). unfold c0, cell_of. destruct (in_dec Z.eq_dec f (where_eq name (first_label a))) as [Y|Y]; [rewrite (A Y) | rewrite (B Y)]; reflexivity. }
  assert (Z1 : forall f, 0 <= f < nf -> zlen (nthZ [] (ps_cellid s1) f) = 2).
  { intros f Hf. destruct (fd_cellid _ _ _ _ _ _ _ _ _ D1 f Hf) as (A & B). destruct (in_dec Z.eq_dec f (where_eq name (first_label a))) as [Y|Y]; [rewrite (A Y); reflexivity | rewrite (B Y); apply HR; exact Hf]. }
  assert (Row : forall f, 0 <= f < nf -> (forall f', pair2 a L (pi_fcenter I) name f f' \/ pair2 a L (pi_fcenter I) name f' f -> nthZ [] (ps_cellid s') f = [cell f; cell f']) /\
    (nthZ 0 name f <> low_label a -> nthZ 0 name f <> high_label a -> nthZ [] (ps_cellid s') f = nthZ [] (ps_cellid s) f)).
  { intros f Hf. rewrite Q1, O1. destruct (fd_cellid _ _ _ _ _ _ _ _ _ D2 f Hf) as (A2 & B2). destruct (fd_cellid _ _ _ _ _ _ _ _ _ D1 f Hf) as (A1 & B1). split.
    - intros f' [P|P]; destruct (HC _ _ P) as (E1 & E2); destruct (pair2_labels _ _ _ _ _ _ P) as (P1 & P2); pose proof (proj1 P1) as R1; pose proof (proj1 P2) as R2.
      + rewrite B2; [rewrite A1; [|apply InF; exact P1]|].
        * rewrite E1, !C0 by assumption. reflexivity.
        * intros X. apply InF in X. apply (first_second a). rewrite <- (proj2 P1), <- (proj2 X). reflexivity.
      + rewrite A2 by (apply InF; exact P2). rewrite E2, C1, C0 by assumption. reflexivity.
    - intros NL NH. assert (K : forall l, l = first_label a \/ l = second_label a -> ~ In f (where_eq name l)).
      { intros l Hl X. apply InF in X. destruct X as (_ & X). apply labels_cases in Hl. destruct Hl; congruence. }
      rewrite B2, B1; [reflexivity | apply K; auto | apply K; auto]. }
  split; [split|].
  - split.
    + destruct (fd_sized _ _ _ _ _ _ _ _ _ D2) as [S1 S2 S3 S4 S5]. split; rewrite ?Q1, ?Q2, ?Q3, ?Q4, ?O1, ?O2, ?O3, ?O4; assumption.
    + intros f Hf. destruct (fd_cellid _ _ _ _ _ _ _ _ _ D2 f Hf) as (A & B). unfold c0, cell_of in *. rewrite Q1, O1. destruct (in_dec Z.eq_dec f (where_eq name (second_label a))) as [Y|Y]; [rewrite (A Y) | rewrite (B Y)]; (split; [try reflexivity; apply Z1; exact Hf | apply (C1 f Hf)]).
    + apply (nd_len _ _ _ _ _ N2).
    + apply (nd_len _ _ _ _ _ N2).
  - intros f f' P. apply (partner_pair2 a L) in P; [|exact PA]. apply Row; [|exact P]. destruct P as [P|P]; apply pair2_labels in P; destruct P as ((P1 & _) & (P2 & _)); assumption.
  - intros f Hf. apply (Row f Hf).
  - intros c x Hc. rewrite Q3, O3. rewrite (fd_nid _ _ _ _ _ _ _ _ _ D2) by exact Hc. rewrite (fd_nid _ _ _ _ _ _ _ _ _ D1) by exact Hc. rewrite !in_app_iff, !in_flat_map. split.
    + intros [[H|(f & Hf & Hx)]|(f & Hf & Hx)]; [left; exact H | right | right]; apply filter_In in Hf; destruct Hf as (Hf & Ef); apply Z.eqb_eq in Ef; apply InF in Hf; pose proof (proj1 Hf) as R1.
      * destruct (paired_first _ _ _ _ _ _ (pa_faces _ _ _ _ _ _ PA) Hf) as (f' & P). destruct (HC _ _ P) as (E1 & _). exists f, f'. split; [apply (partner_pair2 a L); auto|]. rewrite C0 in Ef by exact R1. split; [exact Ef|]. unfold beside. rewrite <- C0, <- E1; [exact Hx|]. apply pair2_labels in P. apply P.
      * destruct (paired_second _ _ _ _ _ _ (pa_faces _ _ _ _ _ _ PA) Hf) as (f' & P). destruct (HC _ _ P) as (_ & E1). exists f, f'. split; [apply (partner_pair2 a L); auto|]. rewrite C1 in Ef by exact R1. split; [exact Ef|]. unfold beside. rewrite <- C0, <- E1; [exact Hx|]. apply pair2_labels in P. apply P.
    + intros [H|(f & f' & P & Ec & Hx)]; [left; left; exact H|]. apply (partner_pair2 a L) in P; [|exact PA]. destruct P as [P|P]; destruct (HC _ _ P) as (E1 & E2); destruct (pair2_labels _ _ _ _ _ _ P) as (P1 & P2); pose proof (proj1 P1) as R1; pose proof (proj1 P2) as R2.
      * left; right. exists f. split; [apply filter_In; split; [apply InF; exact P1 | rewrite C0 by exact R1; apply Z.eqb_eq; exact Ec]|]. rewrite E1, C0 by exact R2. exact Hx.
      * right. exists f. split; [apply filter_In; split; [apply InF; exact P2 | rewrite C1 by exact R2; apply Z.eqb_eq; exact Ec]|]. rewrite E2, C0 by exact R1. exact Hx.
  - intros EJ i j P. apply (partner_pair2 a L) in P; [|exact PA]. destruct P as [P|P]; destruct (HL _ _ P) as (E2 & E1 & _); specialize (E1 EJ); destruct (pair2_labels _ _ _ _ _ _ P) as (P1 & P2); pose proof (proj1 P1) as R1; pose proof (proj1 P2) as R2; rewrite wp_nodename in R1, R2.
    + destruct (nd_node _ _ _ _ _ N2 i R1) as (_ & B). rewrite B by (intros X; apply InN in X; apply (first_second a); rewrite <- (proj2 P1), <- (proj2 X); reflexivity).
      destruct (nd_node _ _ _ _ _ N1 i R1) as (A & _). rewrite A by (apply InN; exact P1). rewrite E1. f_equal. rewrite (fd_node _ _ _ _ _ _ _ _ _ D2), (fd_node _ _ _ _ _ _ _ _ _ D1). reflexivity.
    + destruct (nd_node _ _ _ _ _ N2 i R2) as (A & _). rewrite A by (apply InN; exact P2). rewrite E2. f_equal.
      destruct (nd_node _ _ _ _ _ N1 i R2) as (_ & B). rewrite B by (intros X; apply InN in X; apply (first_second a); rewrite <- (proj2 P2), <- (proj2 X); reflexivity). rewrite (fd_node _ _ _ _ _ _ _ _ _ D2), (fd_node _ _ _ _ _ _ _ _ _ D1). reflexivity.
  - intros i j P EL. apply (partner_pair2 a L) in P; [|exact PA]. destruct P as [P|P]; destruct (HL _ _ P) as (E2 & E1 & _); destruct (pair2_labels _ _ _ _ _ _ P) as (P1 & P2); pose proof (proj1 P1) as R1; pose proof (proj1 P2) as R2; rewrite wp_nodename in R1, R2.
    + exfalso. apply (first_second a). rewrite <- EL. symmetry. apply P1.
    + destruct (nd_node _ _ _ _ _ N2 i R2) as (A & _). rewrite A by (apply InN; exact P2). rewrite E2. f_equal.
      destruct (nd_node _ _ _ _ _ N1 i R2) as (_ & B). rewrite B by (intros X; apply InN in X; apply (first_second a); rewrite <- (proj2 P2), <- (proj2 X); reflexivity). rewrite (fd_node _ _ _ _ _ _ _ _ _ D2), (fd_node _ _ _ _ _ _ _ _ _ D1). reflexivity.
  - intros EJ i j P EL. apply (partner_pair2 a L) in P; [|exact PA]. destruct P as [P|P]; destruct (HL _ _ P) as (E2 & _ & E1); specialize (E1 EJ); destruct (pair2_labels _ _ _ _ _ _ P) as (P1 & P2); pose proof (proj1 P1) as R1; pose proof (proj1 P2) as R2; rewrite wp_nodename in R1, R2.
    + destruct E1 as (k & Hk & E1 & Hk2). exists k. split; [lia|].
      destruct (nd_node _ _ _ _ _ N2 i R1) as (_ & B). rewrite B by (intros X; apply InN in X; apply (first_second a); rewrite <- (proj2 P1), <- (proj2 X); reflexivity).
      destruct (nd_node _ _ _ _ _ N1 i R1) as (A & _). rewrite A by (apply InN; exact P1). rewrite E1. f_equal. rewrite (fd_node _ _ _ _ _ _ _ _ _ D2), (fd_node _ _ _ _ _ _ _ _ _ D1). reflexivity.
    + exfalso. apply (first_second a). rewrite <- EL. apply P2.
  - intros i Hi NL NH. assert (K : forall l, l = first_label a \/ l = second_label a -> ~ In i (where_eq nodename l)).
    { intros l Hl X. apply InN in X. destruct X as (_ & X). apply labels_cases in Hl. destruct Hl; congruence. }
    destruct (nd_node _ _ _ _ _ N2 i Hi) as (_ & B2). destruct (nd_node _ _ _ _ _ N1 i Hi) as (_ & B1). destruct (nd_ghosts _ _ _ _ _ N2 i Hi) as (_ & G2). destruct (nd_ghosts _ _ _ _ _ N1 i Hi) as (_ & G1).
    rewrite B2, B1, G2, G1 by (apply K; auto). rewrite (fd_node _ _ _ _ _ _ _ _ _ D2), (fd_node _ _ _ _ _ _ _ _ _ D1), (fd_ghost _ _ _ _ _ _ _ _ _ D2), (fd_ghost _ _ _ _ _ _ _ _ _ D1). auto.
  - intros i j P. apply (partner_pair2 a L) in P; [|exact PA]. destruct P as [P|P]; destruct (pair2_labels _ _ _ _ _ _ P) as (P1 & P2); pose proof (proj1 P1) as R1; pose proof (proj1 P2) as R2; rewrite wp_nodename in R1, R2.
    + destruct (nd_ghosts _ _ _ _ _ N2 i R1) as (_ & B). rewrite B by (intros X; apply InN in X; apply (first_second a); rewrite <- (proj2 P1), <- (proj2 X); reflexivity). apply (nd_ghosts _ _ _ _ _ N1 i R1). apply InN; exact P1.
    + apply (nd_ghosts _ _ _ _ _ N2 i R2). apply InN; exact P2.
  - exists s1, s2. split; [exists cp1, cp2; auto | congruence].
Qed.

Definition axis_ok (a : axis) : Prop := not_periodic name nodename a \/ exists L, periodic_axis f32 I name nodename a L.
Lemma step_ok a jloop s : axis_ok a -> inv s ->
  exists s', direction f32 I a jloop (where_eq name (first_label a)) (where_eq name (second_label a)) (where_eq nodename (first_label a)) (where_eq nodename (second_label a)) s = Ok s' /\ stepR a jloop s s'.
Proof.
  intros [H|(L & H)] HI.
  - exists s. split; [|apply step_absent; assumption]. destruct WF. apply direction_absent; [exact H | lia | lia].
  - destruct (step_periodic a jloop L s H HI) as (s' & E & S & _). exists s'. auto.
Qed.

(** the directions one after the other *)
Definition run_dirs (l : list (axis * bool)) (s : pstate) : res pstate :=
  foldM (fun s '(a, jl) => direction f32 I a jl (where_eq name (first_label a)) (where_eq name (second_label a)) (where_eq nodename (first_label a)) (where_eq nodename (second_label a)) s) l s.
Record chainR (l : list (axis * bool)) (s s' : pstate) : Prop := {
  ch_inv : inv s';
  ch_face : forall a f f', In a (map fst l) -> partner a (pi_fcenter I) name f f' -> nthZ [] (ps_cellid s') f = [cell f; cell f'];
  ch_face_other : forall f, 0 <= f < nf -> (forall a, In a (map fst l) -> nthZ 0 name f <> low_label a /\ nthZ 0 name f <> high_label a) -> nthZ [] (ps_cellid s') f = nthZ [] (ps_cellid s) f;
  ch_nid : forall c x, 0 <= c < n -> (In x (nthZ [] (ps_nid s') c) <-> In x (nthZ [] (ps_nid s) c) \/ exists a f f', In a (map fst l) /\ partner a (pi_fcenter I) name f f' /\ cell f = c /\ beside I (cell f') x);
  ch_node : forall a i j, In (a, true) l -> partner a (pi_vertex I) nodename i j -> nthZ [] (ps_node s') i = nthZ [] (ps_node s) i ++ counted (nthZ [] (pi_nodecell I) j);
  ch_node_second : forall a i j, In a (map fst l) -> partner a (pi_vertex I) nodename i j -> nthZ 0 nodename i = second_label a -> nthZ [] (ps_node s') i = nthZ [] (ps_node s) i ++ counted (nthZ [] (pi_nodecell I) j);
  ch_node_first : forall a i j, In (a, false) l -> partner a (pi_vertex I) nodename i j -> nthZ 0 nodename i = first_label a -> exists k, 0 <= k < zlen (nthZ [] (pi_nodecell I) j) - 1 /\ nthZ [] (ps_node s') i = nthZ [] (ps_node s) i ++ [nthZ 0 (nthZ [] (pi_nodecell I) j) k];
  ch_node_other : forall i, 0 <= i < nn -> (forall a, In a (map fst l) -> nthZ 0 nodename i <> low_label a /\ nthZ 0 nodename i <> high_label a) -> nthZ [] (ps_node s') i = nthZ [] (ps_node s) i /\ nthZ [] (ps_ghost s') i = nthZ [] (ps_ghost s) i;
  ch_ghost : forall a i j, In a (map fst l) -> partner a (pi_vertex I) nodename i j -> nthZ [] (ps_ghost s') i = [no_ghost] }.

Lemma partner_label a pts nm i j : partner a pts nm i j -> 0 <= i < zlen nm /\ (nthZ 0 nm i = low_label a \/ nthZ 0 nm i = high_label a).
Proof. intros (L & _ & [((H1 & H2) & _)|(_ & (H1 & H2) & _)]); auto. Qed.
Lemma labels_differ a b : a <> b -> low_label a <> low_label b /\ low_label a <> high_label b /\ high_label a <> low_label b /\ high_label a <> high_label b.
Proof. destruct a, b; intros H; try congruence; cbn; lia. Qed.
Lemma label_other a b v : a <> b -> v = low_label a \/ v = high_label a -> v <> low_label b /\ v <> high_label b.
Proof. intros N H. pose proof (labels_differ a b N). destruct H as [-> | ->]; tauto. Qed.

Lemma run_dirs_ok l : forall s, NoDup (map fst l) -> (forall a, In a (map fst l) -> axis_ok a) -> inv s -> exists s', run_dirs l s = Ok s' /\ chainR l s s'.
Proof.
  pose proof (wp_nodename _ _ _ _ _ _ _ WF) as Wn.
  induction l as [|(a & jl) l IH]; intros s ND OK HI; unfold run_dirs; cbn [foldM].
  { exists s. split; [reflexivity|]. split; try (intros; contradiction); [exact HI | reflexivity | | auto]. intros c x _. split; [left; assumption | intros [H|(a & f & f' & [] & _)]; exact H]. }
  destruct (step_ok a jl s) as (s1 & E1 & S1); [apply OK; left; reflexivity | exact HI|]. rewrite E1. cbn [bind]. cbn [map fst] in ND. apply NoDup_cons_iff in ND. destruct ND as (Na & ND).
  destruct (IH s1 ND) as (s' & E' & C'); [intros; apply OK; right; assumption | apply S1|]. exists s'. split; [exact E'|].
  assert (Oth : forall nm i, nthZ 0 nm i = low_label a \/ nthZ 0 nm i = high_label a -> forall b, In b (map fst l) -> nthZ 0 nm i <> low_label b /\ nthZ 0 nm i <> high_label b).
  { intros nm i H b Hb. apply (label_other a b); [intros ->; contradiction | exact H]. }
  assert (Oth' : forall b nm i, In b (map fst l) -> nthZ 0 nm i = low_label b \/ nthZ 0 nm i = high_label b -> nthZ 0 nm i <> low_label a /\ nthZ 0 nm i <> high_label a).
  { intros b nm i Hb H. apply (label_other b a); [intros ->; contradiction | exact H]. }
  assert (In2 : forall b jb, In (b, jb) l -> In b (map fst l)) by (intros b jb H; apply (in_map fst) in H; exact H).
  split; cbn [map fst].
  - apply C'.
  - intros b f f' [<-|Hb] P; [|apply (ch_face _ _ _ C' b); assumption]. destruct (partner_label _ _ _ _ _ P) as (Hf & Hl).
    rewrite (ch_face_other _ _ _ C') by (try exact Hf; apply Oth; exact Hl). apply (sr_face _ _ _ _ S1); exact P.
  - intros f Hf H. rewrite (ch_face_other _ _ _ C') by (try exact Hf; intros; apply H; right; assumption). destruct (H a (or_introl eq_refl)). apply (sr_face_other _ _ _ _ S1); assumption.
  - intros c x Hc. rewrite (ch_nid _ _ _ C' c x Hc), (sr_nid _ _ _ _ S1 c x Hc). split.
    + intros [[H|(f & f' & P & H)]|(b & f & f' & Hb & P & H)]; [left; exact H | right; exists a, f, f'; split; [left; reflexivity | split; [exact P | exact H]] | right; exists b, f, f'; split; [right; exact Hb | split; [exact P | exact H]]].
    + intros [H|(b & f & f' & [<-|Hb] & P & H)]; [left; left; exact H | left; right; exists f, f'; auto | right; exists b, f, f'; auto].
  - intros b i j [Eb|Hb] P.
    + injection Eb as <- ->. destruct (partner_label _ _ _ _ _ P) as (Hf & Hl). rewrite Wn in Hf. rewrite (proj1 (ch_node_other _ _ _ C' i Hf (Oth _ _ Hl))). apply (sr_node _ _ _ _ S1); [reflexivity | exact P].
    + rewrite (ch_node _ _ _ C' b i j Hb P). f_equal. destruct (partner_label _ _ _ _ _ P) as (Hf & Hl). rewrite Wn in Hf. destruct (Oth' b nodename i (In2 _ _ Hb) Hl). apply (sr_node_other _ _ _ _ S1); assumption.
  - intros b i j [<-|Hb] P EL.
    + destruct (partner_label _ _ _ _ _ P) as (Hf & Hl). rewrite Wn in Hf. rewrite (proj1 (ch_node_other _ _ _ C' i Hf (Oth _ _ Hl))). apply (sr_node_second _ _ _ _ S1); assumption.
    + rewrite (ch_node_second _ _ _ C' b i j Hb P EL). f_equal. destruct (partner_label _ _ _ _ _ P) as (Hf & Hl). rewrite Wn in Hf. destruct (Oth' b nodename i Hb Hl). apply (sr_node_other _ _ _ _ S1); assumption.
  - intros b i j [Eb|Hb] P EL.
    + injection Eb as <- ->. destruct (partner_label _ _ _ _ _ P) as (Hf & Hl). rewrite Wn in Hf. rewrite (proj1 (ch_node_other _ _ _ C' i Hf (Oth _ _ Hl))). apply (sr_node_first _ _ _ _ S1); [reflexivity | exact P | exact EL].
    + destruct (ch_node_first _ _ _ C' b i j Hb P EL) as (k & Hk & ->). exists k. split; [exact Hk|]. f_equal. destruct (partner_label _ _ _ _ _ P) as (Hf & Hl). rewrite Wn in Hf. destruct (Oth' b nodename i (In2 _ _ Hb) Hl). apply (sr_node_other _ _ _ _ S1); assumption.
  - intros i Hi H. destruct (ch_node_other _ _ _ C' i Hi) as (A & B); [intros; apply H; right; assumption|]. rewrite A, B. destruct (H a (or_introl eq_refl)). apply (sr_node_other _ _ _ _ S1); assumption.
  - intros b i j [<-|Hb] P; [|apply (ch_ghost _ _ _ C' b i j); assumption]. destruct (partner_label _ _ _ _ _ P) as (Hf & Hl). rewrite Wn in Hf. rewrite (proj2 (ch_node_other _ _ _ C' i Hf (Oth _ _ Hl))). apply (sr_ghost _ _ _ _ S1 i j); exact P.
Qed.

Definition start : pstate := {| ps_cellid := cellid; ps_fid := zeros_like 0 n; ps_nid := zeros_like [] n; ps_shift := zeros_like p0 n; ps_node := zeros_like [] nn; ps_ghost := ghost; ps_j := None |}.
Definition dirs (dim : Z) : list (axis * bool) := if dim =? 3 then [(AX, true); (AY, true); (AZ, true)] else [(AX, true); (AY, false)].
Lemma dirs_axes dim : map fst (dirs dim) = axes dim. Proof. unfold dirs, axes. destruct (dim =? 3); reflexivity. Qed.
Lemma start_inv : inv start.
Proof.
  destruct WF. assert (ZL : forall A (x : A) m, 0 <= m -> zlen (zeros_like x m) = m) by (intros; apply zlen_zeros_like; assumption).
  split; cbn [start ps_cellid ps_node ps_ghost].
  - split; cbn [start ps_cellid ps_fid ps_nid ps_shift]; try (apply ZL; lia); [exact wp_cellid|]. intros c x Hc. rewrite nthZ_zeros_like by lia. intros [].
  - intros f Hf. split; [apply wp_rows; exact Hf | reflexivity].
  - apply ZL; lia.
  - exact wp_ghost.
Qed.
Lemma update_periodic_run dim s' : dim = 2 \/ dim = 3 -> run_dirs (dirs dim) start = Ok s' ->
  update_periodic f32 dim n nn I cellid ghost name nodename = Ok {| pt_cellid := ps_cellid s'; pt_fid := map (fun c => if c =? 0 then -1 else c) (ps_fid s'); pt_nid := pad_unique (ps_nid s'); pt_shift := ps_shift s';
         pt_node := pad_unique (ps_node s'); pt_ghost := ps_ghost s' |}.
Proof.
  intros Hd E. unfold update_periodic. unfold run_dirs, dirs, start in E. destruct Hd as [-> | ->]; cbn [Z.eqb Pos.eqb foldM negb first_label second_label] in E |- *.
  - destruct (direction f32 I AX _ _ _ _ _ _) as [s1|e]; cbn [bind] in *; [|discriminate]. destruct (direction f32 I AY _ _ _ _ _ _) as [s2|e]; cbn [bind] in *; [|discriminate]. injection E as ->. reflexivity.
  - destruct (direction f32 I AX _ _ _ _ _ _) as [s1|e]; cbn [bind] in *; [|discriminate]. destruct (direction f32 I AY _ _ _ _ _ _) as [s2|e]; cbn [bind] in *; [|discriminate]. destruct (direction f32 I AZ _ _ _ _ _ _) as [s3|e]; cbn [bind] in *; [|discriminate]. injection E as ->. reflexivity.
Qed.
Lemma update_periodic_ok dim : dim = 2 \/ dim = 3 -> (forall a, In a (axes dim) -> axis_ok a) ->
  exists s', update_periodic f32 dim n nn I cellid ghost name nodename = Ok {| pt_cellid := ps_cellid s'; pt_fid := map (fun c => if c =? 0 then -1 else c) (ps_fid s'); pt_nid := pad_unique (ps_nid s'); pt_shift := ps_shift s';
         pt_node := pad_unique (ps_node s'); pt_ghost := ps_ghost s' |} /\ chainR (dirs dim) start s'.
Proof.
  intros Hd HA. destruct (run_dirs_ok (dirs dim) start) as (s' & E & C).
  - rewrite dirs_axes. unfold axes. destruct (dim =? 3); repeat constructor; cbn; intuition discriminate.
  - rewrite dirs_axes. exact HA.
  - apply start_inv.
  - exists s'. split; [apply update_periodic_run; assumption | exact C].
Qed.
End Run.

(** ** padding *)
Lemma fold_zmax_ge l : forall m, m <= fold_left (fun m (r : list Z) => Z.max m (zlen r)) l m /\ forall r, In r l -> zlen r <= fold_left (fun m r => Z.max m (zlen r)) l m.
Proof.
  induction l as [|q l IH]; intros m; cbn [fold_left]; [split; [lia | intros r []]|]. destruct (IH (Z.max m (zlen q))) as (A & B). split; [lia|]. intros r [<-|H]; [lia | apply B; exact H].
Qed.
Lemma pad_unique_row rows i : 0 <= i < zlen rows -> exists k, nthZ [] (pad_unique rows) i = (np_unique (nthZ [] rows i) ++ repeat (-1) k) ++ [zlen (filter (fun c => negb (c =? -1)) (np_unique (nthZ [] rows i)))].
Proof.
  intros Hi. unfold pad_unique. set (m := fold_left _ _ _). rewrite (nthZ_map _ []) by (rewrite zlen_map; exact Hi). rewrite (nthZ_map _ []) by exact Hi. cbv zeta. exists (Z.to_nat (m - zlen (np_unique (nthZ [] rows i)))). f_equal. f_equal. f_equal.
  rewrite filter_app. assert (R : forall k, filter (fun c => negb (c =? -1)) (repeat (-1) k) = []) by (induction k; cbn; auto). rewrite R, app_nil_r. reflexivity.
Qed.
Lemma counted_snoc l r k : k = zlen l -> counted ((l ++ r) ++ [k]) = l.
Proof.
  intros ->. unfold counted, row_count. rewrite zlen_app. change (zlen [zlen l]) with 1. replace (zlen (l ++ r) + 1 - 1) with (zlen (l ++ r)) by lia. rewrite nthZ_app_last. unfold zlen. rewrite Nat2Z.id, <- app_assoc, firstn_app, Nat.sub_diag, firstn_all. cbn. apply app_nil_r.
Qed.
Lemma pad_unique_counted rows i : 0 <= i < zlen rows -> (forall c, In c (nthZ [] rows i) -> 0 <= c) -> counted (nthZ [] (pad_unique rows) i) = np_unique (nthZ [] rows i).
Proof.
  intros Hi H. destruct (pad_unique_row rows i Hi) as (k & ->). apply counted_snoc. f_equal. clear k. assert (G : forall c, In c (np_unique (nthZ [] rows i)) -> 0 <= c) by (intros c Hc; apply H; apply np_unique_In; exact Hc).
  induction (np_unique (nthZ [] rows i)) as [|x l IH]; [reflexivity|]. cbn [filter]. destruct (Z.eqb_spec x (-1)) as [->|_]; [specialize (G (-1) (or_introl eq_refl)); lia|]. cbn. f_equal. apply IH. intros; apply G; right; assumption.
Qed.
Lemma zlen_pad_unique rows : zlen (pad_unique rows) = zlen rows.
Proof. unfold pad_unique. rewrite !zlen_map. reflexivity. Qed.
