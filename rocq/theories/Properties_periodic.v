(** * Properties_periodic: C63 (faces), C64 (nodes) and C65 (shift) of periodic boundaries. *)
From Coq Require Import Reals Lra Sorted.
From Verif Require Import Py PyLemmas Model_part Model_label Model_conn Model_geom Model_halo Model_periodic Model_fvm Spec_geom Spec_interp Spec_fvm Spec_periodic
  Proofs_label Proofs_conn1 Proofs_conn3 Proofs_interp1 Proofs_bc Proofs_periodic Proofs_periodic2 Proofs_periodic3.
Open Scope Z_scope.

(** C63.  When every periodic direction spans [0, L], its faces and nodes are paired and 0 and L are single precision numbers, the tables are
    built; the second cell of a periodic face is the cell of the face opposite, and conversely; all other faces keep their row. *)
Theorem C63_partner_cells : forall f32 dim nbcells nbnodes I cellid ghost name nodename,
  dim = 2 \/ dim = 3 -> wf_periodic nbcells nbnodes I cellid ghost name nodename ->
  (forall a, In a (axes dim) -> not_periodic name nodename a \/ exists L, periodic_axis f32 I name nodename a L) ->
  exists T, update_periodic f32 dim nbcells nbnodes I cellid ghost name nodename = Ok T /\
  (forall a L f f', In a (axes dim) -> periodic_axis f32 I name nodename a L -> facing a L (pi_fcenter I) name f f' ->
     nthZ [] (pt_cellid T) f = [cell_of cellid f; cell_of cellid f'] /\ nthZ [] (pt_cellid T) f' = [cell_of cellid f'; cell_of cellid f]) /\
  (forall f, 0 <= f < zlen name -> is_periodic dim (nthZ 0 name f) = false -> nthZ [] (pt_cellid T) f = nthZ [] cellid f).
Proof.
  intros f32 dim n nn I cellid ghost name nodename Hd WF HA. destruct (update_periodic_ok f32 I n nn name nodename cellid ghost WF dim Hd HA) as (s' & E & C). eexists. split; [exact E|]. cbn [pt_cellid]. split.
  - intros a L f f' Ha PA F. rewrite <- (dirs_axes dim) in Ha. split; apply (ch_face _ _ _ _ _ _ _ _ _ _ C a); try exact Ha; exists L; auto.
  - intros f Hf NP. rewrite (ch_face_other _ _ _ _ _ _ _ _ _ _ C f Hf); [reflexivity|]. rewrite dirs_axes. intros a Ha. split; intros X; rewrite X in NP; destruct Hd as [-> | ->]; destruct a; cbn in NP, Ha; try discriminate NP; destruct Ha as [Q|[Q|[]]]; discriminate.
Qed.
Print Assumptions C63_partner_cells.

(** the periodic neighbours of a cell: the cells beside the cells opposite its periodic faces, in increasing order and once each *)
Theorem C63_periodic_neighbours : forall f32 dim nbcells nbnodes I cellid ghost name nodename,
  dim = 2 \/ dim = 3 -> wf_periodic nbcells nbnodes I cellid ghost name nodename ->
  (forall a, In a (axes dim) -> not_periodic name nodename a \/ exists L, periodic_axis f32 I name nodename a L) ->
  exists T, update_periodic f32 dim nbcells nbnodes I cellid ghost name nodename = Ok T /\
  forall c, 0 <= c < nbcells -> StronglySorted Z.lt (counted (nthZ [] (pt_nid T) c)) /\
    forall x, In x (counted (nthZ [] (pt_nid T) c)) <->
      exists a L f f', In a (axes dim) /\ periodic_axis f32 I name nodename a L /\ (facing a L (pi_fcenter I) name f f' \/ facing a L (pi_fcenter I) name f' f) /\
        cell_of cellid f = c /\ beside I (cell_of cellid f') x.
Proof.
  intros f32 dim n nn I cellid ghost name nodename Hd WF HA. destruct (update_periodic_ok f32 I n nn name nodename cellid ghost WF dim Hd HA) as (s' & E & C). eexists. split; [exact E|]. cbn [pt_nid].
  intros c Hc. pose proof (ch_inv _ _ _ _ _ _ _ _ _ _ C) as [SZ _ _ _]. rewrite pad_unique_counted; [|rewrite (sz_nid _ _ _ SZ); exact Hc | intros x Hx; apply (sz_in _ _ _ SZ) in Hx; [lia | exact Hc]].
  split; [apply np_unique_sorted|]. intros x. rewrite np_unique_In, (ch_nid _ _ _ _ _ _ _ _ _ _ C c x Hc), dirs_axes. cbn [start ps_nid]. rewrite nthZ_zeros_like by lia. split.
  - intros [[]|(a & f & f' & Ha & (L & PA & F) & Ec & Hx)]. exists a, L, f, f'. auto.
  - intros (a & L & f & f' & Ha & PA & F & Ec & Hx). right. exists a, f, f'. split; [exact Ha|]. split; [exists L; auto | auto].
Qed.
Print Assumptions C63_periodic_neighbours.

(** C64.  A periodic node knows the cells around the node opposite, once each and in increasing order: in 3D and for the x direction on both
    sides, for the y direction in 2D on the bottom side; its ghosts are dropped.  A node that is not periodic keeps its ghosts and has no
    periodic cells. *)
Theorem C64_node_cells : forall f32 dim nbcells nbnodes I cellid ghost name nodename,
  dim = 2 \/ dim = 3 -> wf_periodic nbcells nbnodes I cellid ghost name nodename ->
  (forall a, In a (axes dim) -> not_periodic name nodename a \/ exists L, periodic_axis f32 I name nodename a L) ->
  exists T, update_periodic f32 dim nbcells nbnodes I cellid ghost name nodename = Ok T /\
  (forall a L i j, In a (axes dim) -> periodic_axis f32 I name nodename a L -> facing a L (pi_vertex I) nodename i j ->
     let knows p q := StronglySorted Z.lt (counted (nthZ [] (pt_node T) p)) /\ forall c, In c (counted (nthZ [] (pt_node T) p)) <-> In c (counted (nthZ [] (pi_nodecell I) q)) in
     knows i j /\ (dim = 3 \/ a = AX -> knows j i) /\ nthZ [] (pt_ghost T) i = [no_ghost] /\ nthZ [] (pt_ghost T) j = [no_ghost]) /\
  (forall i, 0 <= i < nbnodes -> is_periodic dim (nthZ 0 nodename i) = false -> counted (nthZ [] (pt_node T) i) = [] /\ nthZ [] (pt_ghost T) i = nthZ [] ghost i).
Proof.
  intros f32 dim n nn I cellid ghost name nodename Hd WF HA. destruct (update_periodic_ok f32 I n nn name nodename cellid ghost WF dim Hd HA) as (s' & E & C). eexists. split; [exact E|]. cbn [pt_node pt_ghost].
  pose proof (ch_inv _ _ _ _ _ _ _ _ _ _ C) as [_ _ LN _]. pose proof (wp_nodename _ _ _ _ _ _ _ WF) as Wn.
  assert (St : forall i, 0 <= i < nn -> nthZ [] (ps_node (start n nn cellid ghost)) i = []) by (intros i Hi; cbn [start ps_node]; rewrite nthZ_zeros_like by lia; reflexivity).
  assert (Kn : forall p q, 0 <= p < nn -> 0 <= q < nn -> nthZ [] (ps_node s') p = nthZ [] (ps_node (start n nn cellid ghost)) p ++ counted (nthZ [] (pi_nodecell I) q) ->
    StronglySorted Z.lt (counted (nthZ [] (pad_unique (ps_node s')) p)) /\ forall c, In c (counted (nthZ [] (pad_unique (ps_node s')) p)) <-> In c (counted (nthZ [] (pi_nodecell I) q))).
  { intros p q Hp Hq R. rewrite St in R by exact Hp. cbn [app] in R. rewrite pad_unique_counted; [|rewrite LN; exact Hp|].
    - split; [apply np_unique_sorted|]. intros c. rewrite np_unique_In, R. tauto.
    - intros c Hc. rewrite R in Hc. destruct (wp_noderow _ _ _ _ _ _ _ WF q Hq) as ((_ & _ & R3) & _). apply R3 in Hc. lia. }
  split.
  - intros a L i j Ha PA F. pose proof Ha as Ha'. rewrite <- (dirs_axes dim) in Ha'. pose proof F as ((Fi & Li) & (Fj & Lj) & _). rewrite Wn in Fi, Fj.
    assert (Pij : partner f32 I name nodename a (pi_vertex I) nodename i j) by (exists L; auto). assert (Pji : partner f32 I name nodename a (pi_vertex I) nodename j i) by (exists L; auto).
    assert (J : dim = 3 \/ a = AX -> In (a, true) (dirs dim)).
    { destruct Hd as [-> | ->]; intros [X | ->]; try discriminate X; try (left; reflexivity). destruct a; cbn; auto. }
    split; [|split; [|split]].
    + apply Kn; [exact Fi | exact Fj|]. destruct (Z.eq_dec (low_label a) (second_label a)) as [El|Nl].
      * apply (ch_node_second _ _ _ _ _ _ _ _ _ _ C a i j Ha' Pij). congruence.
      * apply (ch_node _ _ _ _ _ _ _ _ _ _ C a i j); [|exact Pij]. apply J. right. destruct a; cbn in Nl; congruence.
    + intros X. apply Kn; [exact Fj | exact Fi|]. apply (ch_node _ _ _ _ _ _ _ _ _ _ C a j i); [apply J; exact X | exact Pji].
    + apply (ch_ghost _ _ _ _ _ _ _ _ _ _ C a i j Ha' Pij).
    + apply (ch_ghost _ _ _ _ _ _ _ _ _ _ C a j i Ha' Pji).
  - intros i Hi NP. destruct (ch_node_other _ _ _ _ _ _ _ _ _ _ C i Hi) as (A & B).
    + rewrite dirs_axes. intros a Ha. split; intros X; rewrite X in NP; destruct Hd as [-> | ->]; destruct a; cbn in NP, Ha; try discriminate NP; destruct Ha as [Q|[Q|[]]]; discriminate.
    + split; [|exact B]. rewrite St in A by exact Hi. rewrite pad_unique_counted; [rewrite A; reflexivity | rewrite LN; exact Hi | rewrite A; intros c []].
Qed.
Print Assumptions C64_node_cells.

(** What fails in 2D: an upper node gets at most one periodic cell, however many there are around the bottom node opposite. *)
Theorem C64_upper_nodes_refuted : forall f32 nbcells nbnodes I cellid ghost name nodename,
  wf_periodic nbcells nbnodes I cellid ghost name nodename ->
  (forall a, In a (axes 2) -> not_periodic name nodename a \/ exists L, periodic_axis f32 I name nodename a L) ->
  exists T, update_periodic f32 2 nbcells nbnodes I cellid ghost name nodename = Ok T /\
  forall L i j, periodic_axis f32 I name nodename AY L -> facing AY L (pi_vertex I) nodename i j -> zlen (counted (nthZ [] (pt_node T) j)) <= 1.
Proof.
  intros f32 n nn I cellid ghost name nodename WF HA. destruct (update_periodic_ok f32 I n nn name nodename cellid ghost WF 2 (or_introl eq_refl) HA) as (s' & E & C). eexists. split; [exact E|]. cbn [pt_node].
  intros L i j PA F. pose proof F as ((Fi & Li) & (Fj & Lj) & _). rewrite (wp_nodename _ _ _ _ _ _ _ WF) in Fi, Fj.
  destruct (ch_node_first _ _ _ _ _ _ _ _ _ _ C AY j i) as (k & Hk & R); [right; left; reflexivity | exists L; auto | exact Lj|].
  cbn [start ps_node] in R. rewrite nthZ_zeros_like in R by lia. cbn [app] in R. pose proof (ch_inv _ _ _ _ _ _ _ _ _ _ C) as [_ _ LN _].
  destruct (pad_unique_row (ps_node s') j) as (m & Er); [rewrite LN; exact Fj|]. rewrite Er, R. set (x := nthZ 0 (nthZ [] (pi_nodecell I) i) k). cbn [np_unique fold_right ins filter].
  assert (G : forall l v, v <= 1 -> zlen (counted (l ++ [v])) <= 1).
  { intros l v Hv. unfold counted, row_count. rewrite zlen_app. change (zlen [v]) with 1. replace (zlen l + 1 - 1) with (zlen l) by lia. rewrite nthZ_app_last. unfold zlen. rewrite firstn_length. lia. }
  apply G. destruct (negb (x =? -1)); cbn; lia.
Qed.
Print Assumptions C64_upper_nodes_refuted.

(** C63, what fails: a domain that does not start at 0, and (in y and z) one whose length is not a single precision number.  The constructor
    then ends with a KeyError although the faces are paired. *)
Theorem C63_offset_domain_refuted : forall f32 dim nbcells nbnodes I cellid ghost name nodename x0 L,
  dim = 2 \/ dim = 3 -> wf_periodic nbcells nbnodes I cellid ghost name nodename ->
  (forall b, In b (axes dim) -> b <> AX -> not_periodic name nodename b) -> reaches AX L (pi_vertex I) -> reaches AX L (pi_fcenter I) ->
  (exists f, labelled name 11 f) -> (forall f, labelled name 11 f -> px (nthZ vzero (pi_fcenter I) f) = x0) -> (forall f, labelled name 22 f -> px (nthZ vzero (pi_fcenter I) f) = L) ->
  f32 (x0 + L)%R <> f32 L ->
  update_periodic f32 dim nbcells nbnodes I cellid ghost name nodename = Err KeyError.
Proof.
  intros f32 dim n nn I cellid ghost name nodename x0 L Hd WF HO RV RF HF H0 HL N. apply (update_fail f32 I n nn name nodename cellid ghost WF AX L dim Hd); try assumption.
  - unfold axes. destruct (dim =? 3); left; reflexivity.
  - intros f g Hf Hg E. cbn in E. rewrite (H0 f Hf) in E. injection E as E _ _. unfold key_of in E. rewrite (HL g Hg) in E. contradiction.
Qed.
Print Assumptions C63_offset_domain_refuted.

Theorem C63_length_refuted : forall f32 dim nbcells nbnodes I cellid ghost name nodename a L,
  dim = 2 \/ dim = 3 -> wf_periodic nbcells nbnodes I cellid ghost name nodename -> a <> AX -> In a (axes dim) ->
  (forall b, In b (axes dim) -> b <> a -> not_periodic name nodename b) -> reaches a L (pi_vertex I) -> reaches a L (pi_fcenter I) ->
  (exists f, labelled name (high_label a) f) -> (forall f, labelled name (high_label a) f -> coord a (nthZ vzero (pi_fcenter I) f) = L) ->
  (forall f, labelled name (low_label a) f -> coord a (nthZ vzero (pi_fcenter I) f) = 0%R) ->
  f32 0%R = 0%R -> f32 L <> L ->
  update_periodic f32 dim nbcells nbnodes I cellid ghost name nodename = Err KeyError.
Proof.
  intros f32 dim n nn I cellid ghost name nodename a L Hd WF NX Ha HO RV RF HF HL H0 Z0 N. apply (update_fail f32 I n nn name nodename cellid ghost WF a L dim Hd); try assumption.
  - destruct a; [congruence | exact HF | exact HF].
  - intros f g Hf Hg E. destruct a; [congruence | |]; cbn in *; unfold key_of in E; rewrite (HL f Hf), (H0 g Hg), Z0 in E; injection E as E; lra.
Qed.
Print Assumptions C63_length_refuted.

(** C65.  A domain periodic in x only, no cell of which touches both sides: the shift of a cell moves it to the other side of the domain: +L for
    the cells beside the left ones, -L for those beside the right ones (and not beside a left one), 0 for the others. *)
Theorem C65_shift_x : forall f32 dim nbcells nbnodes I cellid ghost name nodename L,
  dim = 2 \/ dim = 3 -> wf_periodic nbcells nbnodes I cellid ghost name nodename -> periodic_axis f32 I name nodename AX L ->
  (forall b, In b (axes dim) -> b <> AX -> not_periodic name nodename b) ->
  (forall f f', labelled name 11 f -> labelled name 22 f' -> cell_of cellid f <> cell_of cellid f') ->
  exists T, update_periodic f32 dim nbcells nbnodes I cellid ghost name nodename = Ok T /\
  forall c, 0 <= c < nbcells ->
    let left_zone := exists f, labelled name 11 f /\ beside I (cell_of cellid f) c in let right_zone := exists f, labelled name 22 f /\ beside I (cell_of cellid f) c in
    (left_zone -> nthZ vzero (pt_shift T) c = P3 L 0 0) /\ (~ left_zone -> right_zone -> nthZ vzero (pt_shift T) c = P3 (- L) 0 0) /\
    (~ left_zone -> ~ right_zone -> nthZ vzero (pt_shift T) c = vzero).
Proof.
  intros f32 dim n nn I cellid ghost name nodename L Hd WF PA HO NB. destruct (shift_ok f32 I n nn name nodename cellid ghost WF AX L dim Hd) as (T & E & _ & H); try assumption.
  - unfold axes. destruct (dim =? 3); left; reflexivity.
  - exists T. split; [exact E|]. intros c Hc. exact (H c Hc).
Qed.
Print Assumptions C65_shift_x.

(** hence the two faces of a pair are partners in the sense of C29 when the two cells lie in the zone of their side only *)
Theorem C65_flux_partners : forall f32 dim nbcells nbnodes I cellid ghost name nodename L,
  dim = 2 \/ dim = 3 -> wf_periodic nbcells nbnodes I cellid ghost name nodename -> periodic_axis f32 I name nodename AX L ->
  (forall b, In b (axes dim) -> b <> AX -> not_periodic name nodename b) ->
  (forall f f', labelled name 11 f -> labelled name 22 f' -> cell_of cellid f <> cell_of cellid f') ->
  exists T, update_periodic f32 dim nbcells nbnodes I cellid ghost name nodename = Ok T /\
  forall X vel f f', fv_cellid X = pt_cellid T -> fv_name X = name -> fv_centerf X = pi_fcenter I -> fv_shift X = pt_shift T ->
    facing AX L (pi_fcenter I) name f f' ->
    (exists g, labelled name 11 g /\ beside I (cell_of cellid g) (cell_of cellid f)) -> (exists g, labelled name 22 g /\ beside I (cell_of cellid g) (cell_of cellid f')) ->
    ~ (exists g, labelled name 11 g /\ beside I (cell_of cellid g) (cell_of cellid f')) ->
    (forall w, vdot w (nthZ vzero (fv_normal X) f') = (- vdot w (nthZ vzero (fv_normal X) f))%R) -> nthZ vzero vel f' = nthZ vzero vel f ->
    partners dim X vel f f'.
Proof.
  intros f32 dim n nn I cellid ghost name nodename L Hd WF PA HO NB. assert (HA : In AX (axes dim)) by (unfold axes; destruct (dim =? 3); left; reflexivity).
  destruct (C65_shift_x f32 dim n nn I cellid ghost name nodename L Hd WF PA HO NB) as (T & E & H). exists T. split; [exact E|].
  destruct (C63_partner_cells f32 dim n nn I cellid ghost name nodename Hd WF) as (T' & E' & HC & _).
  { intros b Hb. destruct b; [right; exists L; exact PA | left; apply HO; [exact Hb | discriminate] | left; apply HO; [exact Hb | discriminate]]. }
  rewrite E in E'. injection E' as <-. intros X vel f f' E1 E2 E3 E4 F Zl Zr Zn Hn Hv.
  destruct (HC AX L f f' HA PA F) as (R1 & R2). pose proof F as ((Ff & Lf) & (Ff' & Lf') & (A0 & A1)).
  assert (Q0 : 0 <= cell_of cellid f < n) by (apply (wp_rows _ _ _ _ _ _ _ WF); exact Ff). assert (Q1 : 0 <= cell_of cellid f' < n) by (apply (wp_rows _ _ _ _ _ _ _ WF); exact Ff').
  unfold partners, cell0, cell1, face_center, fv_label. rewrite E1, E2, E3, E4, R1, R2.
  change (nthZ 0 [cell_of cellid f; cell_of cellid f'] 0) with (cell_of cellid f). change (nthZ 0 [cell_of cellid f; cell_of cellid f'] 1) with (cell_of cellid f').
  change (nthZ 0 [cell_of cellid f'; cell_of cellid f] 0) with (cell_of cellid f'). change (nthZ 0 [cell_of cellid f'; cell_of cellid f] 1) with (cell_of cellid f).
  rewrite (proj1 (H _ Q0) Zl). rewrite (proj1 (proj2 (H _ Q1)) Zn Zr). rewrite Lf, Lf', A1. destruct (nthZ vzero (pi_fcenter I) f) as [x1 x2 x3]. cbn in A0. subst x1.
  repeat split; try assumption; intros [y1 y2 y3]; unfold vsub, image; cbn; f_equal; lra.
Qed.
Print Assumptions C65_flux_partners.

(** What fails in y and z: the shift has the wrong sign.  A cell of the low side, seen from the high side, is placed at distance 2 L from where it
    belongs (its coordinate plus L). *)
Theorem C65_shift_yz_refuted : forall f32 dim nbcells nbnodes I cellid ghost name nodename a L,
  dim = 2 \/ dim = 3 -> wf_periodic nbcells nbnodes I cellid ghost name nodename -> a <> AX -> In a (axes dim) -> periodic_axis f32 I name nodename a L ->
  (forall b, In b (axes dim) -> b <> a -> not_periodic name nodename b) ->
  (forall f f', labelled name (low_label a) f -> labelled name (high_label a) f' -> cell_of cellid f <> cell_of cellid f') ->
  exists T, update_periodic f32 dim nbcells nbnodes I cellid ghost name nodename = Ok T /\
  (forall c x, 0 <= c < nbcells -> (exists f, labelled name (low_label a) f /\ beside I (cell_of cellid f) c) -> ~ (exists f, labelled name (high_label a) f /\ beside I (cell_of cellid f) c) ->
     coord a (image (high_label a) x (nthZ vzero (pt_shift T) c)) = ((coord a x + L) - 2 * L)%R) /\
  (forall c x, 0 <= c < nbcells -> (exists f, labelled name (high_label a) f /\ beside I (cell_of cellid f) c) ->
     coord a (image (low_label a) x (nthZ vzero (pt_shift T) c)) = ((coord a x - L) + 2 * L)%R).
Proof.
  intros f32 dim n nn I cellid ghost name nodename a L Hd WF NX Ha PA HO NB. destruct (shift_ok f32 I n nn name nodename cellid ghost WF a L dim Hd Ha PA HO NB) as (T & E & _ & H).
  exists T. split; [exact E|]. split.
  - intros c x Hc H1 H2. destruct (H c Hc) as (_ & B & _). destruct a; [congruence | |]; cbn [first_label second_label low_label high_label] in *; rewrite (B H2 H1); unfold image; cbn; lra.
  - intros c x Hc H1. destruct (H c Hc) as (A & _). destruct a; [congruence | |]; cbn [first_label second_label low_label high_label] in *; rewrite (A H1); unfold image; cbn; lra.
Qed.
Print Assumptions C65_shift_yz_refuted.
