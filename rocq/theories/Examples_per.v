(** * Examples_per: a mesh of four triangles, periodic in both directions, meets the conditions of C90 with IEEE single precision for [f32]. *)
From Coq Require Import Reals Lra Permutation Sorted.
From Verif Require Import Py PyLemmas Model_part Spec_part Model_label Proofs_label Model_conn Spec_conn Proofs_conn1 Proofs_conn2 Model_geom Spec_geom Proofs_geom1
  Model_periodic Spec_periodic Model_interp Spec_interp Model_fvm Spec_fvm Model_bc Spec_bc Proofs_bc Proofs_bc2 Model_domain Spec_domain Model_parallel Spec_parallel
  Model_comm Model_run Spec_run Spec_per Properties_per.
From Verif Require Examples_run3 Examples_periodic.
Import Examples_run3(ch, ch_v, ch_wf, ch_cells, ch_facets, ch_facet, ch_nonflat, ch_proper, ch_at).
Import Examples_periodic(single, s0, s1, s2, s12, s32, px_label).
Open Scope Z_scope.

Definition tor_labels : list Z := [11; 44; 22; 11; 33; 22].
(** all four sides periodic *)
Definition around_bc : list (loc * bctype) := [(LIn, BPeriodic); (LOut, BPeriodic); (LUpper, BPeriodic); (LBottom, BPeriodic)].

Lemma tor_facets c F : only_cell 2 ch c F -> In (c, F) [(0, [0; 1]); (2, [1; 2]); (1, [3; 4]); (3, [4; 5]); (1, [0; 3]); (2, [2; 5])].
Proof.
  intros (H & O). apply ch_facets in H. cbn [In] in H.
  assert (X : forall d, has_facet 2 ch d F -> d = c) by exact O.
  repeat (destruct H as [H|H]; [injection H as <- <-;
    first [cbn [In]; tauto | exfalso; first [discriminate (X 0 ltac:(apply ch_facet; cbn; tauto)) | discriminate (X 1 ltac:(apply ch_facet; cbn; tauto)) | discriminate (X 2 ltac:(apply ch_facet; cbn; tauto)) | discriminate (X 3 ltac:(apply ch_facet; cbn; tauto))]]|]). destruct H.
Qed.
Lemma tor_facet c F : In (c, F) [(0, [0; 1]); (2, [1; 2]); (1, [3; 4]); (3, [4; 5]); (1, [0; 3]); (2, [2; 5])] -> only_cell 2 ch c F.
Proof.
  intros H. cbn [In] in H. repeat (destruct H as [H|H]; [injection H as <- <-; split; [apply ch_facet; cbn; tauto|]; intros d Hd; apply ch_facets in Hd; cbn [In] in Hd;
    repeat (destruct Hd as [Hd|Hd]; [first [discriminate Hd | injection Hd as <-; reflexivity]|]); destruct Hd|]). destruct H.
Qed.
Ltac facet H := apply tor_facets in H; cbn [In] in H; repeat (destruct H as [H|H]; [injection H as <- <-|]); [..|destruct H].
Ltac tr H := exists H; split; [apply Permutation_refl|]; repeat constructor.
Ltac ctr := unfold same_rounded, centre_of, barycentre, vsum, vscal, vadd; cbn [map fold_right length].
Lemma tor_centre x y : centre_of ch_v [x; y] = P3 ((px (at_node ch_v x) + px (at_node ch_v y)) / 2) ((py (at_node ch_v x) + py (at_node ch_v y)) / 2) ((pz (at_node ch_v x) + pz (at_node ch_v y)) / 2).
Proof. unfold centre_of. cbn [map]. generalize (at_node ch_v x) (at_node ch_v y). intros p q. unfold barycentre, vsum, vscal, vadd. cbn [fold_right List.length px py pz]. f_equal; cbn; field. Qed.
Definition tor_h : R := (1 / 2)%R.
Lemma h1 : single ((0 + 1) / 2) = (1 / 2)%R. Proof. rewrite <- Examples_periodic.s12. replace ((0 + 1) / 2)%R with (1 / 2)%R by lra. reflexivity. Qed.
Lemma h3 : single ((1 + 2) / 2) = (3 / 2)%R. Proof. rewrite <- Examples_periodic.s32. replace ((1 + 2) / 2)%R with (3 / 2)%R by lra. reflexivity. Qed.

Lemma tor_x : periodic_direction 2 ch ch_v tor_labels single AX 2.
Proof.
  split.
  - intros p H. cbn in H. repeat (destruct H as [<-|H]; [cbn; lra|]). destruct H.
  - exact s0.
  - exact s2.
  - exists 1, [0; 3]. split; [apply tor_facet; cbn; tauto | reflexivity].
  - intros c F H L. facet H; try discriminate L. exists 2, [2; 5]. split; [apply tor_facet; cbn; tauto|]. split; [reflexivity|]. tr [2; 5].
  - intros c F H L. facet H; try discriminate L. exists 1, [0; 3]. split; [apply tor_facet; cbn; tauto|]. split; [reflexivity|]. tr [2; 5].
  - intros c F c' G H H' E L _. facet H; facet H'; first [reflexivity | discriminate E | exfalso; destruct L as [L|L]; discriminate L].
  - intros c F H. facet H; split; discriminate.
  - assert (N1 : forall i, labelled tor_labels 11 i <-> In i [0; 3]) by (apply (px_label _ 6); reflexivity).
    assert (N2 : forall i, labelled tor_labels 22 i <-> In i [2; 5]) by (apply (px_label _ 6); reflexivity).
    split.
    + intros i Hi. apply N1 in Hi. cbn [In] in Hi. destruct Hi as [<-|[<-|[]]]; [exists 2 | exists 5]; (split; [apply N1; cbn; tauto|]; split; [apply N2; cbn; tauto|]; split; reflexivity).
    + intros i Hi. apply N2 in Hi. cbn [In] in Hi. destruct Hi as [<-|[<-|[]]]; [exists 0 | exists 3]; (split; [apply N1; cbn; tauto|]; split; [apply N2; cbn; tauto|]; split; reflexivity).
    + intros l i j [->| ->] Hi Hj (_ & S & _); [apply N1 in Hi, Hj | apply N2 in Hi, Hj]; cbn [In] in Hi, Hj; destruct Hi as [<-|[<-|[]]], Hj as [<-|[<-|[]]]; try reflexivity; exfalso;
      change (nthZ vzero ch_v 0) with (P3 0 0 0) in S; change (nthZ vzero ch_v 3) with (P3 0 1 0) in S; change (nthZ vzero ch_v 2) with (P3 2 0 0) in S; change (nthZ vzero ch_v 5) with (P3 2 1 0) in S; cbn [py] in S; rewrite s0, s1 in S; lra.
Qed.
Lemma tor_y : periodic_direction 2 ch ch_v tor_labels single AY 1.
Proof.
  split.
  - intros p H. cbn in H. repeat (destruct H as [<-|H]; [cbn; lra|]). destruct H.
  - exact s0.
  - exact s1.
  - exists 0, [0; 1]. split; [apply tor_facet; cbn; tauto | reflexivity].
  - intros c F H L. facet H; try discriminate L; [exists 1, [3; 4] | exists 3, [4; 5]]; (split; [apply tor_facet; cbn; tauto|]; split; [reflexivity|]); [tr [3; 4] | tr [4; 5]].
  - intros c F H L. facet H; try discriminate L; [exists 0, [0; 1] | exists 2, [1; 2]]; (split; [apply tor_facet; cbn; tauto|]; split; [reflexivity|]); [tr [3; 4] | tr [4; 5]].
  - intros c F c' G H H' E L S. facet H; facet H'; first [reflexivity | discriminate E | exfalso; destruct L as [L|L]; discriminate L | exfalso; destruct S as (S & _); rewrite !tor_centre in S; destruct ch_at as (A0 & A1 & A2 & A3 & A4 & A5); rewrite ?A0, ?A1, ?A2, ?A3, ?A4, ?A5 in S; cbn [px] in S; rewrite h1, h3 in S; lra].
  - intros c F H. facet H; split; discriminate.
  - assert (N1 : forall i, labelled tor_labels 44 i <-> In i [1]) by (apply (px_label _ 6); reflexivity).
    assert (N2 : forall i, labelled tor_labels 33 i <-> In i [4]) by (apply (px_label _ 6); reflexivity).
    split.
    + intros i Hi. apply N1 in Hi. cbn [In] in Hi. destruct Hi as [<-|[]]. exists 4. split; [apply N1; cbn; tauto|]. split; [apply N2; cbn; tauto|]. split; reflexivity.
    + intros i Hi. apply N2 in Hi. cbn [In] in Hi. destruct Hi as [<-|[]]. exists 1. split; [apply N1; cbn; tauto|]. split; [apply N2; cbn; tauto|]. split; reflexivity.
    + intros l i j [->| ->] Hi Hj _; [apply N1 in Hi, Hj | apply N2 in Hi, Hj]; cbn [In] in Hi, Hj; destruct Hi as [<-|[]], Hj as [<-|[]]; reflexivity.
Qed.
Theorem C90_torus_mesh : periodic_mesh 2 ch ch_v tor_labels single.
Proof.
  split.
  - exact ch_wf.
  - exact ch_nonflat.
  - exact ch_proper.
  - split; [reflexivity|]. intros l H. right. cbn [In tor_labels] in H. repeat (destruct H as [<-|H]; [reflexivity|]). destruct H.
  - intros c F H. right. facet H; reflexivity.
  - intros a H. right. cbn in H. destruct H as [<-|[<-|[]]]; [exists 2%R; exact tor_x | exists 1%R; exact tor_y].
Qed.
Theorem C90_torus_split : valid_split 2 1 ch ch_v [] [0; 0; 0; 0].
Proof.
  split; [lia | | |lia].
  - split; [reflexivity|]. intros c Hc. destruct (ch_cells c Hc) as [-> | [-> | [-> | ->]]]; vm_compute; split; congruence.
  - intros _. split; [reflexivity|]. intros k Hk. change (zlen ch_v) with 6 in Hk. assert (Q : k = 0 \/ k = 1 \/ k = 2 \/ k = 3 \/ k = 4 \/ k = 5) by lia.
    destruct Q as [-> | [-> | [-> | [-> | [-> | ->]]]]]; [exists 0 | exists 0 | exists 2 | exists 1 | exists 0 | exists 2]; (split; [unfold iscell; change (zlen ch) with 4; lia | vm_compute; tauto]).
Qed.
Theorem C90_torus_bc : per_bc_valid 2 ch tor_labels around_bc [].
Proof.
  split; [repeat constructor; cbn; intuition discriminate|]. split; [|split; [intros l H; cbn in H |- *; tauto | split; [|intros l H; cbn in H; intuition discriminate]]].
  - intros l t H. cbn in H. repeat (destruct H as [H|H]; [injection H as <- <-; split; [cbn; tauto|]; split; [auto|]; split; [intros _ | auto]|]); [| | | |destruct H].
    + exists 1, [0; 3]. split; [apply tor_facet; cbn; tauto | reflexivity].
    + exists 2, [2; 5]. split; [apply tor_facet; cbn; tauto | reflexivity].
    + exists 1, [3; 4]. split; [apply tor_facet; cbn; tauto | reflexivity].
    + exists 0, [0; 1]. split; [apply tor_facet; cbn; tauto | reflexivity].
  - cbn. repeat split; intros [H|H]; discriminate H.
Qed.
(** hence on this mesh the program conserves the sum of the cell values (the four cells are equally large) for every velocity and every start, and keeps the bounds *)
Theorem C90_torus : forall U tfinal a b c d, exists st n, setup single 2 1 ch ch_v tor_labels [] [0; 0; 0; 0] = Ok st /\ forall fuel, (n <= fuel)%nat ->
  exists time s w, transport fuel around_bc [] U 1 tfinal 1 st [[a; b; c; d]] = Ok (Some (time, [s])) /\ Model_bc.cell_of (hb_ne s) = Ok w /\
    rsum (map (fun i => measure_of ch ch_v i * nthZ 0 w i)%R (range 4)) = (a / 2 + b / 2 + c / 2 + d / 2)%R.
Proof.
  intros U tfinal a b c d.
  destruct (C90_conservation single 2 ch ch_v tor_labels [] [0; 0; 0; 0] around_bc [] U 1 tfinal [a; b; c; d]%R C90_torus_mesh C90_torus_split C90_torus_bc ltac:(lra)) as (st & n & E & R); [intros i F H; facet H; reflexivity | reflexivity|].
  exists st, n. split; [exact E|]. intros fuel Hf. destruct (R fuel Hf) as (time & s & w & A & B & C). exists time, s, w. split; [exact A|]. split; [exact B|]. change (range 4) with (range (zlen ch)). rewrite C. change (range (zlen ch)) with [0; 1; 2; 3].
  assert (M : measure_of ch ch_v 0 = (/ 2)%R /\ measure_of ch ch_v 1 = (/ 2)%R /\ measure_of ch ch_v 2 = (/ 2)%R /\ measure_of ch ch_v 3 = (/ 2)%R).
  { unfold measure_of, cell_measure. change (cell ch 0) with [0; 1; 4]. change (cell ch 1) with [0; 4; 3]. change (cell ch 2) with [1; 2; 5]. change (cell ch 3) with [1; 5; 4]. cbn [map]. destruct ch_at as (A0 & A1 & A2 & A3 & A4 & A5). rewrite ?A0, ?A1, ?A2, ?A3, ?A4, ?A5.
    unfold turn. cbn [px py]. repeat split; match goal with |- context [Rabs ?x] => replace x with 1%R by ring end; rewrite Rabs_R1; lra. }
  destruct M as (M0 & M1 & M2 & M3). cbn [map]. rewrite M0, M1, M2, M3. change (nthZ 0%R [a; b; c; d] 0) with a. change (nthZ 0%R [a; b; c; d] 1) with b. change (nthZ 0%R [a; b; c; d] 2) with c. change (nthZ 0%R [a; b; c; d] 3) with d. unfold rsum. cbn [fold_right]. lra.
Qed.
(** across the domain: beyond facet {0,3} of cell 1 lies cell 2, beyond facet {0,1} of cell 0 lies cell 1 *)
Theorem C90_torus_next : next_cell 2 ch ch_v tor_labels 1 [0; 3] = Some 2 /\ next_cell 2 ch ch_v tor_labels 0 [0; 1] = Some 1.
Proof.
  assert (EB : boundary_facets ch = [(0, [0; 1]); (1, [3; 4]); (1, [0; 3]); (2, [2; 5]); (2, [1; 2]); (3, [4; 5])]) by (vm_compute; reflexivity).
  assert (B1 : beside ch 1 [0; 3] = None) by (vm_compute; reflexivity). assert (B2 : beside ch 0 [0; 1] = None) by (vm_compute; reflexivity).
  destruct ch_at as (A0 & A1 & A2 & A3 & A4 & A5).
  unfold next_cell, across_domain. rewrite B1, B2, EB. unfold option_map. split; cbn [find snd]; unfold faces, same_but; rewrite !tor_centre, ?A0, ?A1, ?A2, ?A3, ?A4, ?A5; cbn [px py pz];
  repeat match goal with |- context [axis_of ?l] => first [change (axis_of l) with AX | change (axis_of l) with AY] end; cbn [set_coord px py pz].
  - change (flabel 2 tor_labels [0; 1] =? partner_label (flabel 2 tor_labels [0; 3])) with false. change (flabel 2 tor_labels [3; 4] =? partner_label (flabel 2 tor_labels [0; 3])) with false. change (flabel 2 tor_labels [0; 3] =? partner_label (flabel 2 tor_labels [0; 3])) with false. change (flabel 2 tor_labels [2; 5] =? partner_label (flabel 2 tor_labels [0; 3])) with true. cbn [andb].
    repeat (destruct (Req_EM_T _ _); [|exfalso; lra]). reflexivity.
  - change (flabel 2 tor_labels [0; 1] =? partner_label (flabel 2 tor_labels [0; 1])) with false. change (flabel 2 tor_labels [3; 4] =? partner_label (flabel 2 tor_labels [0; 1])) with true. cbn [andb].
    repeat (destruct (Req_EM_T _ _); [|exfalso; lra]). reflexivity.
Qed.
