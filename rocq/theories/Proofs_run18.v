(** * Proofs_run18: a triangle cut at its centre: the depths of the parts and the force of the bottom. *)
From Coq Require Import Reals Lra Psatz Permutation Sorted.
From Verif Require Import Py PyLemmas Model_part Spec_part Model_label Model_conn Spec_conn Proofs_conn1 Proofs_conn2 Model_geom Spec_geom Proofs_geom1 Proofs_geom2 Proofs_geom3
  Model_halo Spec_halo Model_interp Spec_interp Spec_lsq Proofs_lsq Model_fvm Spec_fvm Proofs_fvm1 Proofs_fvm2 Properties_fvm Model_bc Spec_bc Spec_bc3 Proofs_label Proofs_bc Proofs_bc2 Model_domain Spec_domain
  Model_comm Model_parallel Spec_parallel Proofs_parallel1 Model_run Spec_run Proofs_run1 Proofs_run2 Proofs_run3 Proofs_run4 Proofs_run5 Spec_run2 Model_run2 Proofs_run7 Proofs_run8 Proofs_run9 Proofs_run10 Proofs_run11 Proofs_run12.
From Verif Require Import Model_sw Proofs_sw5 Proofs_sw6 Spec_run4 Proofs_run17.
From Verif Require Spec_sw Properties_sw Proofs_sw8.
Open Scope Z_scope.

(** the nodes of a triangle counterclockwise, its facets in the same order *)
Record arranged (cells : list (list Z)) (nodes : list pt) (c a b d : Z) (F0 F1 F2 : list Z) : Prop := {
  ar_row : Permutation (cell cells c) [a; b; d];
  ar_turn : (0 < turn (at_node nodes a) (at_node nodes b) (at_node nodes d))%R;
  ar_facets : Permutation (facets (cell cells c)) [F0; F1; F2];
  ar_f0 : Permutation F0 [a; b]; ar_f1 : Permutation F1 [b; d]; ar_f2 : Permutation F2 [d; a] }.
Lemma perm2 {A} (l : list A) a b : Permutation l [a; b] -> l = [a; b] \/ l = [b; a].
Proof. intros P. apply Permutation_sym in P. apply Permutation_length_2_inv in P. exact P. Qed.
Lemma turn_rot a b c : turn b c a = turn a b c.
Proof. unfold turn. ring. Qed.
Lemma arranged_rot cells nodes c a b d F0 F1 F2 : arranged cells nodes c a b d F0 F1 F2 -> arranged cells nodes c b d a F1 F2 F0.
Proof.
  intros [P T Q A0 A1 A2]. constructor; try assumption.
  - rewrite P. apply (Permutation_app_comm [a] [b; d]).
  - rewrite turn_rot. exact T.
  - rewrite Q. apply (Permutation_app_comm [F0] [F1; F2]).
Qed.
Lemma facets3 a b d : NoDup [a; b; d] -> exists F0 F1 F2, facets [a; b; d] = [F1; F2; F0] /\ Permutation F0 [a; b] /\ Permutation F1 [b; d] /\ Permutation F2 [d; a].
Proof.
  intros ND. assert (N1 : a <> b /\ a <> d /\ b <> d). { inversion ND as [|? ? X ND1]; subst. inversion ND1 as [|? ? Y ND2]; subst. cbn in X, Y. lia. }
  destruct N1 as (Nab & Nad & Nbd). unfold facets. cbn [map].
  assert (P := np_sort_perm [a; b; d]).
  assert (K : forall k, Permutation (filter (fun x => negb (x =? k)) (np_sort [a; b; d])) (filter (fun x => negb (x =? k)) [a; b; d])) by (intros k; apply Permutation_keep; exact P).
  eexists _, _, _. split; [reflexivity|]. repeat split.
  - rewrite (K d). cbn [filter]. rewrite Z.eqb_refl. replace (a =? d) with false by lia. replace (b =? d) with false by lia. cbn [negb]. reflexivity.
  - rewrite (K a). cbn [filter]. rewrite Z.eqb_refl. replace (b =? a) with false by lia. replace (d =? a) with false by lia. cbn [negb]. reflexivity.
  - rewrite (K b). cbn [filter]. rewrite Z.eqb_refl. replace (a =? b) with false by lia. replace (d =? b) with false by lia. cbn [negb]. apply perm_swap.
Qed.
(** a point from the list of nodes is normalised; the normal of the edge from a to b on its right *)
Definition edge (nodes : list pt) (a b : Z) : pt := P3 (py (at_node nodes b) - py (at_node nodes a)) (px (at_node nodes a) - px (at_node nodes b)) 0.
Definition rot (u : pt) : pt := P3 (py u) (- px u) 0.

Section Triangles.
Context (cells : list (list Z)) (nodes : list pt) (labels : list Z).
Hypothesis VM : valid_mesh 2 cells nodes labels.
Notation WF := (vm_mesh _ _ _ _ VM).
Notation NF := (vm_nonflat _ _ _ _ VM).
Notation P k := (at_node nodes k).

Lemma arranged_exists c : iscell cells c -> exists a b d F0 F1 F2, arranged cells nodes c a b d F0 F1 F2.
Proof.
  intros Hc. destruct (row_facts 2 cells nodes WF c Hc) as (L & ND). pose proof (NF c Hc) as NZ. unfold nonflat in NZ.
  destruct (cell cells c) as [|a [|b [|d [|e R]]]] eqn:ER; unfold zlen in L; cbn [length] in L; try lia. cbn [map] in NZ. destruct NZ as (_ & NZ).
  destruct (facets3 a b d ND) as (F0 & F1 & F2 & EF & P0 & P1 & P2).
  destruct (Rlt_dec 0 (turn (P a) (P b) (P d))) as [T|T].
  - exists a, b, d, F0, F1, F2. constructor; try assumption; rewrite ER; [reflexivity|]. rewrite EF. apply (Permutation_app_comm [F1; F2] [F0]).
  - exists a, d, b, F2, F1, F0. constructor; try rewrite ER.
    + apply perm_skip, perm_swap.
    + assert (turn (P a) (P d) (P b) = - turn (P a) (P b) (P d))%R as -> by (unfold turn; ring). lra.
    + rewrite EF. apply perm_swap.
    + rewrite P2. apply perm_swap.
    + rewrite P1. apply perm_swap.
    + rewrite P0. apply perm_swap.
Qed.

Section One.
Context (c a b d : Z) (F0 F1 F2 : list Z).
Hypothesis Hc : iscell cells c.
Hypothesis AR : arranged cells nodes c a b d F0 F1 F2.
Lemma ar_distinct : a <> b /\ b <> d /\ d <> a.
Proof.
  destruct (row_facts 2 cells nodes WF c Hc) as (_ & ND). apply (Permutation_NoDup (ar_row _ _ _ _ _ _ _ _ _ AR)) in ND.
  inversion ND as [|? ? X ND1]; subst. inversion ND1 as [|? ? Y ND2]; subst. cbn in X, Y. lia.
Qed.
Lemma ar_outward : outward cells nodes c F0 = edge nodes a b.
Proof.
  destruct AR as [PR T Q A0 A1 A2]. destruct ar_distinct as (Nab & Nbd & Nda).
  assert (HF : has_facet 2 cells c F0). { apply (facets_iff 2 cells nodes WF c F0 Hc). apply (Permutation_in _ (Permutation_sym Q)). left. reflexivity. }
  apply (outward_unique 2 cells nodes WF c F0 _ _ HF); [apply (outward_ok 2 cells nodes WF NF c F0 HF)|].
  set (pa := P a) in *. set (pb := P b) in *. set (pd := P d) in *. assert (EE : edge nodes a b = P3 (py pb - py pa) (px pa - px pb) 0) by reflexivity.
  split.
  - rewrite EE. destruct (perm2 _ _ _ A0) as [-> | ->]; unfold area_vector; cbn [map]; fold pa pb; [right|left; reflexivity]. unfold vscal. cbn [px py pz]. f_equal; ring.
  - intros x p Hx NX Hp. apply (Permutation_in _ PR) in Hx. apply (Permutation_in _ A0) in Hp.
    assert (x = d). { destruct Hx as [<- | [<- | [<- | []]]]; [| |reflexivity]; exfalso; apply NX, (Permutation_in _ (Permutation_sym A0)); cbn; auto. } subst x.
    fold pd. rewrite EE. unfold turn in T. destruct Hp as [<- | [<- | []]]; [fold pa | fold pb]; unfold vdot, vsub; cbn [px py pz]; lra.
Qed.
Lemma ar_centre_x : px (centre 2 cells nodes c) = ((px (P a) + px (P b) + px (P d)) / 3)%R /\ py (centre 2 cells nodes c) = ((py (P a) + py (P b) + py (P d)) / 3)%R.
Proof.
  unfold centre, cell_centre. cbn [Z.eqb Pos.eqb]. cbn [px py]. pose proof (ar_row _ _ _ _ _ _ _ _ _ AR) as PR. unfold barycentre.
  assert (L : zlen (map (at_node nodes) (cell cells c)) = 3). { unfold zlen. rewrite map_length, (Permutation_length PR). reflexivity. }
  rewrite L. cbn [vscal px py]. rewrite vsum_px, vsum_py.
  rewrite (rsum_perm _ _ (Permutation_map (fun x => px (at_node nodes x)) PR)), (rsum_perm _ _ (Permutation_map (fun x => py (at_node nodes x)) PR)).
  cbn [map]. unfold rsum. cbn [fold_right]. split; field.
Qed.
Lemma ar_facet_centre a' b' F : Permutation F [a'; b'] -> px (facet_centre nodes F) = ((px (P a') + px (P b')) / 2)%R /\ py (facet_centre nodes F) = ((py (P a') + py (P b')) / 2)%R.
Proof. intros PF. unfold facet_centre. destruct (perm2 _ _ _ PF) as [-> | ->]; unfold barycentre; cbn [map]; rewrite ?vsum_px, ?vsum_py; cbn; split; field. Qed.
(** the cut between the first two parts *)
Lemma common : hd 0 (filter (fun k => mem k F1) F0) = b /\ hd 0 (filter (fun k => mem k F0) F1) = b.
Proof.
  destruct AR as [PR T Q A0 A1 A2]. destruct ar_distinct as (Nab & Nbd & Nda).
  assert (Na : mem a F1 = false). { apply mem_not_In. intros I. apply (Permutation_in _ A1) in I. cbn in I. lia. }
  assert (Nd : mem d F0 = false). { apply mem_not_In. intros I. apply (Permutation_in _ A0) in I. cbn in I. lia. }
  assert (Ib : mem b F1 = true). { apply mem_In. apply (Permutation_in _ (Permutation_sym A1)). cbn. auto. }
  assert (Ib0 : mem b F0 = true). { apply mem_In. apply (Permutation_in _ (Permutation_sym A0)). cbn. auto. }
  split.
  - destruct (perm2 _ _ _ A0) as [-> | ->]; cbn [filter]; rewrite Na, Ib; reflexivity.
  - destruct (perm2 _ _ _ A1) as [-> | ->]; cbn [filter]; rewrite Nd, Ib0; reflexivity.
Qed.
Notation G := (centre 2 cells nodes c).
Lemma cut_ok : cut_normal cells nodes c F0 F1 = rot (vsub G (P b)) /\ cut_normal cells nodes c F1 F0 = vscal (-1) (rot (vsub G (P b))).
Proof.
  destruct common as (E1 & E2). pose proof AR as [PR T Q A0 A1 A2]. destruct ar_centre_x as (GX & GY).
  destruct (ar_facet_centre a b F0 A0) as (X0 & Y0). destruct (ar_facet_centre b d F1 A1) as (X1 & Y1).
  unfold cut_normal. rewrite E1, E2. cbv zeta. fold (rot (vsub G (P b))).
  assert (V : (vdot (rot (vsub G (P b))) (vsub (facet_centre nodes F1) (facet_centre nodes F0)) = turn (P a) (P b) (P d) / 3)%R).
  { unfold vdot, rot, vsub, turn. cbn [px py pz]. rewrite X0, Y0, X1, Y1, GX, GY. field. }
  assert (V' : (vdot (rot (vsub G (P b))) (vsub (facet_centre nodes F0) (facet_centre nodes F1)) = - (turn (P a) (P b) (P d) / 3))%R).
  { rewrite <- V. unfold vdot, vsub. cbn [px py pz rot]. ring. }
  rewrite V, V'. split; destruct (Rlt_dec _ _); try reflexivity; lra.
Qed.
End One.

Section Force.
Context (B : flow) (W : Z -> q5) (c a b d : Z) (F0 F1 F2 : list Z).
Hypothesis Hc : iscell cells c.
Hypothesis AR : arranged cells nodes c a b d F0 F1 F2.
Notation out F := (outside cells nodes labels B W c F).
Notation G := (centre 2 cells nodes c).
Lemma ar_three : F0 <> F1 /\ F1 <> F2 /\ F2 <> F0.
Proof.
  pose proof (facets_NoDup 2 cells nodes WF c Hc) as ND. apply (Permutation_NoDup (ar_facets _ _ _ _ _ _ _ _ _ AR)) in ND.
  inversion ND as [|? ? X ND1]; subst. inversion ND1 as [|? ? Y ND2]; subst. cbn in X, Y. split; [|split]; intros E; subst; tauto.
Qed.
Lemma sum_facets (g : list Z -> R) : rsum (map g (facets (cell cells c))) = (g F0 + g F1 + g F2)%R.
Proof. rewrite (rsum_perm _ _ (Permutation_map g (ar_facets _ _ _ _ _ _ _ _ _ AR))). cbn [map]. unfold rsum. cbn [fold_right]. ring. Qed.
Lemma sum_others F (g : list Z -> R) : rsum (map g (filter (fun F' => if list_eq_dec Z.eq_dec F' F then false else true) (facets (cell cells c)))) =
  ((if list_eq_dec Z.eq_dec F0 F then 0 else g F0) + (if list_eq_dec Z.eq_dec F1 F then 0 else g F1) + (if list_eq_dec Z.eq_dec F2 F then 0 else g F2))%R.
Proof.
  rewrite (rsum_perm _ _ (Permutation_map g (Permutation_keep _ _ _ (ar_facets _ _ _ _ _ _ _ _ _ AR)))). cbn [filter].
  destruct (list_eq_dec Z.eq_dec F0 F), (list_eq_dec Z.eq_dec F1 F), (list_eq_dec Z.eq_dec F2 F); cbn [map]; unfold rsum; cbn [fold_right]; ring.
Qed.
(** the normals of the facets and the cuts *)
Lemma normals_ok : outward cells nodes c F0 = edge nodes a b /\ outward cells nodes c F1 = edge nodes b d /\ outward cells nodes c F2 = edge nodes d a.
Proof. pose proof (arranged_rot _ _ _ _ _ _ _ _ _ AR) as AR1. pose proof (arranged_rot _ _ _ _ _ _ _ _ _ AR1) as AR2. split; [|split]; eapply ar_outward; eassumption. Qed.
Lemma force_at H k : k = px \/ k = py ->
  let n0 := edge nodes a b in let n1 := edge nodes b d in let n2 := edge nodes d a in
  let z F := part_bottom W c H F in let s0 := rot (vsub G (P b)) in
  bottom_force cells nodes labels B W c H k =
  (- g981 * (5 / 10 * H F0 * (q_Z (out F0) * k n0 + z F1 * k s0 + z F2 * (-1) * (k s0 + k n0)) +
             5 / 10 * H F1 * (q_Z (out F1) * k n1 + z F0 * (-1) * k s0 + z F2 * (k s0 - k n1)) +
             5 / 10 * H F2 * (q_Z (out F2) * k n2 + z F0 * (k s0 + k n0) + z F1 * (-1) * (k s0 - k n1))))%R.
Proof.
  intros Hk n0 n1 n2 z s0. unfold bottom_force. rewrite sum_facets, !sum_others. destruct ar_three as (N01 & N12 & N20).
  pose proof (arranged_rot _ _ _ _ _ _ _ _ _ AR) as AR1. pose proof (arranged_rot _ _ _ _ _ _ _ _ _ AR1) as AR2.
  destruct (cut_ok c a b d F0 F1 F2 Hc AR) as (C01 & C10). destruct (cut_ok c b d a F1 F2 F0 Hc AR1) as (C12 & C21). destruct (cut_ok c d a b F2 F0 F1 Hc AR2) as (C20 & C02).
  destruct normals_ok as (O0 & O1 & O2). rewrite O0, O1, O2, C01, C10, C12, C21, C20, C02. fold n0 n1 n2 s0.
  repeat match goal with |- context [list_eq_dec Z.eq_dec ?x ?y] => destruct (list_eq_dec Z.eq_dec x y); [congruence || idtac|congruence || idtac] end.
  unfold z. set (z0 := part_bottom W c H F0). set (z1 := part_bottom W c H F1). set (z2 := part_bottom W c H F2).
  destruct Hk as [-> | ->]; unfold vscal, s0, n0, n1, n2, rot, edge, vsub; cbn [px py pz]; field.
Qed.
(** the system for the depths of the parts *)
Definition dlt (hp0 hp1 hp2 : R) (n0 n1 n2 : pt) : R :=
  ((hp1 * px n1 * (hp2 * py n2) - hp2 * px n2 * (hp1 * py n1)) - (hp0 * px n0 * (hp2 * py n2) - hp0 * py n0 * (hp2 * px n2)) + (hp0 * px n0 * (hp1 * py n1) - hp0 * py n0 * (hp1 * px n1)))%R.
Notation hp F := (q_h (out F)).
Lemma dlt_pos : (0 < hp F0)%R -> (0 < hp F1)%R -> (0 < hp F2)%R -> (0 < dlt (hp F0) (hp F1) (hp F2) (edge nodes a b) (edge nodes b d) (edge nodes d a))%R.
Proof.
  intros A0 A1 A2. pose proof (ar_turn _ _ _ _ _ _ _ _ _ AR) as T.
  assert (dlt (hp F0) (hp F1) (hp F2) (edge nodes a b) (edge nodes b d) (edge nodes d a) = (hp F1 * hp F2 + hp F0 * hp F2 + hp F0 * hp F1) * turn (P a) (P b) (P d))%R as ->.
  { unfold dlt, edge, turn. cbn [px py pz]. ring. }
  apply Rmult_lt_0_compat; [|exact T]. pose proof (Rmult_lt_0_compat _ _ A1 A2). pose proof (Rmult_lt_0_compat _ _ A0 A2). pose proof (Rmult_lt_0_compat _ _ A0 A1). lra.
Qed.
Definition c1 (k : pt -> R) : R :=
  (((q_h (W c) + hp F0) / 2) ^ 2 * k (edge nodes a b) + ((q_h (W c) + hp F1) / 2) ^ 2 * k (edge nodes b d) + ((q_h (W c) + hp F2) / 2) ^ 2 * k (edge nodes d a))%R.
Lemma depths_iff H : part_depths cells nodes labels B W c H <->
  (H F0 + H F1 + H F2 = 3 * q_h (W c))%R /\
  (H F0 * hp F0 * px (edge nodes a b) + H F1 * hp F1 * px (edge nodes b d) + H F2 * hp F2 * px (edge nodes d a) = c1 px)%R /\
  (H F0 * hp F0 * py (edge nodes a b) + H F1 * hp F1 * py (edge nodes b d) + H F2 * hp F2 * py (edge nodes d a) = c1 py)%R.
Proof.
  unfold part_depths. destruct normals_ok as (O0 & O1 & O2). rewrite sum_facets. split.
  - intros (S1 & S2). split; [exact S1|]. split; [pose proof (S2 px (or_introl eq_refl)) as E | pose proof (S2 py (or_intror eq_refl)) as E]; rewrite !sum_facets, O0, O1, O2 in E; exact E.
  - intros (S1 & S2 & S3). split; [exact S1|]. intros k [-> | ->]; rewrite !sum_facets, O0, O1, O2; assumption.
Qed.
Section Wet.
Hypothesis A0 : (0 < hp F0)%R.
Hypothesis A1 : (0 < hp F1)%R.
Hypothesis A2 : (0 < hp F2)%R.
Lemma force_depends H H' : (forall F, In F [F0; F1; F2] -> H F = H' F) -> forall k, k = px \/ k = py -> bottom_force cells nodes labels B W c H k = bottom_force cells nodes labels B W c H' k.
Proof. intros E k Hk. rewrite !(force_at) by exact Hk. unfold part_bottom. rewrite (E F0), (E F1), (E F2) by (cbn; auto). reflexivity. Qed.
Lemma depths_solved H : part_depths cells nodes labels B W c H -> let D := dlt (hp F0) (hp F1) (hp F2) (edge nodes a b) (edge nodes b d) (edge nodes d a) in
  let m0 := (hp F0 * px (edge nodes a b))%R in let m1 := (hp F1 * px (edge nodes b d))%R in let m2 := (hp F2 * px (edge nodes d a))%R in
  let p0 := (hp F0 * py (edge nodes a b))%R in let p1 := (hp F1 * py (edge nodes b d))%R in let p2 := (hp F2 * py (edge nodes d a))%R in
  (H F0 = (3 * q_h (W c) * (m1 * p2 - m2 * p1) - (c1 px * p2 - c1 py * m2) + (c1 px * p1 - c1 py * m1)) / D)%R /\
  (H F1 = ((c1 px * p2 - c1 py * m2) - 3 * q_h (W c) * (m0 * p2 - p0 * m2) + (m0 * c1 py - p0 * c1 px)) / D)%R /\
  (H F2 = ((m1 * c1 py - p1 * c1 px) - (m0 * c1 py - p0 * c1 px) + 3 * q_h (W c) * (m0 * p1 - p0 * m1)) / D)%R.
Proof.
  intros PD D m0 m1 m2 p0 p1 p2. apply depths_iff in PD as (E1 & E2 & E3). rewrite <- E1, <- E2, <- E3. assert (NZ : D <> 0%R) by (apply Rgt_not_eq, dlt_pos; assumption).
  assert (ED : D = ((m1 * p2 - m2 * p1) - (m0 * p2 - p0 * m2) + (m0 * p1 - p0 * m1))%R) by (unfold D, dlt, m0, m1, m2, p0, p1, p2; ring).
  clearbody D. 
  assert (Q : forall x y, (x * D = y -> x = y / D)%R) by (intros x y <-; field; exact NZ).
  split; [|split]; apply Q; rewrite ED; unfold m0, m1, m2, p0, p1, p2; ring.
Qed.
Lemma depths_unique H H' : part_depths cells nodes labels B W c H -> part_depths cells nodes labels B W c H' -> forall F, In F [F0; F1; F2] -> H F = H' F.
Proof.
  intros PD PD' F HF. destruct (depths_solved H PD) as (E0 & E1 & E2). destruct (depths_solved H' PD') as (E0' & E1' & E2').
  destruct HF as [<- | [<- | [<- | []]]]; congruence.
Qed.
Lemma depths_exist : exists H, part_depths cells nodes labels B W c H.
Proof.
  set (D := dlt (hp F0) (hp F1) (hp F2) (edge nodes a b) (edge nodes b d) (edge nodes d a)). assert (NZ : D <> 0%R) by (apply Rgt_not_eq, dlt_pos; assumption).
  set (m0 := (hp F0 * px (edge nodes a b))%R). set (m1 := (hp F1 * px (edge nodes b d))%R). set (m2 := (hp F2 * px (edge nodes d a))%R).
  set (p0 := (hp F0 * py (edge nodes a b))%R). set (p1 := (hp F1 * py (edge nodes b d))%R). set (p2 := (hp F2 * py (edge nodes d a))%R).
  assert (ED : D = ((m1 * p2 - m2 * p1) - (m0 * p2 - p0 * m2) + (m0 * p1 - p0 * m1))%R) by (unfold D, dlt, m0, m1, m2, p0, p1, p2; ring).
  destruct ar_three as (N01 & N12 & N20).
  exists (fun F => if list_eq_dec Z.eq_dec F F0 then ((3 * q_h (W c) * (m1 * p2 - m2 * p1) - (c1 px * p2 - c1 py * m2) + (c1 px * p1 - c1 py * m1)) / D)%R
    else if list_eq_dec Z.eq_dec F F1 then (((c1 px * p2 - c1 py * m2) - 3 * q_h (W c) * (m0 * p2 - p0 * m2) + (m0 * c1 py - p0 * c1 px)) / D)%R
    else (((m1 * c1 py - p1 * c1 px) - (m0 * c1 py - p0 * c1 px) + 3 * q_h (W c) * (m0 * p1 - p0 * m1)) / D)%R).
  apply depths_iff.
  repeat match goal with |- context [list_eq_dec Z.eq_dec ?x ?y] => destruct (list_eq_dec Z.eq_dec x y); [congruence || idtac|congruence || idtac] end.
  clearbody D. set (x := c1 px). set (y := c1 py). set (h := q_h (W c)). rewrite ED in NZ.
  assert (R1 : forall u h n, (u / D * h * n = u * (h * n) / D)%R) by (intros; field; rewrite ED; exact NZ).
  rewrite !R1. fold m0 m1 m2 p0 p1 p2. clearbody m0 m1 m2 p0 p1 p2 x y h. subst D. split; [|split]; field; exact NZ.
Qed.
(** the source of the program *)
Lemma source_force H w G' b' z0 s0 z1 s1 z2 s2 : part_depths cells nodes labels B W c H -> w = W c -> px G' = px G -> py G' = py G -> b' = P b ->
  z0 = q_Z (out F0) -> z1 = q_Z (out F1) -> z2 = q_Z (out F2) ->
  px s0 = px (edge nodes a b) /\ py s0 = py (edge nodes a b) -> px s1 = px (edge nodes b d) /\ py s1 = py (edge nodes b d) -> px s2 = px (edge nodes d a) /\ py s2 = py (edge nodes d a) ->
  source_cell w G' b' (hp F0, z0, s0) (hp F1, z1, s1) (hp F2, z2, s2) = Some (bottom_force cells nodes labels B W c H px, bottom_force cells nodes labels B W c H py).
Proof.
  intros PD -> GX GY -> -> -> -> (X0 & Y0) (X1 & Y1) (X2 & Y2). pose proof (depths_solved H PD) as S. cbv zeta in S.
  rewrite (force_at H px), (force_at H py) by auto. unfold source_cell. rewrite X0, Y0, X1, Y1, X2, Y2, GX, GY.
  assert (NZ : dlt (hp F0) (hp F1) (hp F2) (edge nodes a b) (edge nodes b d) (edge nodes d a) <> 0%R) by (apply Rgt_not_eq, dlt_pos; assumption).
  set (D := dlt _ _ _ _ _ _) in *. unfold c1 in S. cbv zeta.
  assert (OD : forall x y z, y = D -> z = (x / D)%R -> odiv x y = Some z). { intros x y z -> ->. unfold odiv. destruct (Req_EM_T D 0); [contradiction | reflexivity]. }
  destruct S as (S0 & S1 & S2).
  rewrite (OD _ _ (H F0)); [| unfold D, dlt; ring | rewrite S0; field; try exact NZ].
  rewrite (OD _ _ (H F1)); [| unfold D, dlt; ring | rewrite S1; field; try exact NZ].
  rewrite (OD _ _ (H F2)); [| unfold D, dlt; ring | rewrite S2; field; try exact NZ].
  unfold part_bottom, rot, vsub. cbn [px py]. try reflexivity; f_equal; f_equal; ring.
Qed.
End Wet.
End Force.
End Triangles.
