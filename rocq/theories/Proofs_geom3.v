(** * Proofs_geom3: C19 (strict), C20, C23 *)
From Verif Require Import Py PyLemmas Scatter Model_part Model_label Model_conn Spec_conn Proofs_conn1 Proofs_conn2 Proofs_conn3 Model_geom Spec_geom Proofs_geom1 Proofs_geom2.
From Coq Require Import Permutation Sorting.Sorted ZifyBool Lra Psatz.
Open Scope Z_scope.

Definition Rsum (l : list R) : R := fold_right Rplus 0%R l.
Lemma Rsum_perm l l' : Permutation l l' -> Rsum l = Rsum l'.
Proof. unfold Rsum. induction 1 as [|x l l' _ IH|x y l|l l' l'' _ IH1 _ IH2]; cbn [fold_right]; [reflexivity | rewrite IH; reflexivity | ring | congruence]. Qed.

Lemma raw_swap vertex l1 x y l2 : raw_normal vertex (l1 ++ y :: x :: l2) = pscal (-1) (raw_normal vertex (l1 ++ x :: y :: l2)).
Proof.
  unfold raw_normal. rewrite !map_app. cbn [map]. generalize (map (V vertex) l1) as m1, (map (V vertex) l2) as m2, (V vertex x) as a, (V vertex y) as b. intros.
  destruct m1 as [|u [|v m1]]; cbn [app].
  - destruct m2 as [|w [|w' m2]]; cbn [app]; pteq; cbn [px py pz pscal pcross psub]; ring.
  - destruct m2 as [|w m2]; cbn [app]; pteq; cbn [px py pz pscal pcross psub]; ring.
  - destruct m1 as [|p [|q m1]]; cbn [app]; pteq; ring.
Qed.
Lemma raw_perm vertex F G : Permutation F G -> raw_normal vertex F = raw_normal vertex G \/ raw_normal vertex F = pscal (-1) (raw_normal vertex G).
Proof.
  intros P. apply Permutation_Permutation_transp in P. induction P as [l|x y l1 l2|l l' l'' _ IH1 _ IH2]; [left; reflexivity | right; apply raw_swap|].
  destruct IH1 as [-> | ->], IH2 as [-> | ->]; [left | right | right | left]; try reflexivity. pteq; ring.
Qed.
Lemma side_swap vertex l1 x y l2 p : side vertex (l1 ++ y :: x :: l2) p = (- side vertex (l1 ++ x :: y :: l2) p)%R.
Proof.
  unfold side. rewrite !map_app. cbn [map]. generalize (map (V vertex) l1) as m1, (map (V vertex) l2) as m2, (V vertex x) as a, (V vertex y) as b. intros.
  destruct m1 as [|u [|v m1]]; cbn [app].
  - destruct m2 as [|w [|w' m2]]; cbn [app]; unfold turn, det4, det, vsub; cbn [px py pz]; ring.
  - destruct m2 as [|w m2]; cbn [app]; unfold turn, det4, det, vsub; cbn [px py pz]; ring.
  - destruct m1 as [|s [|t m1]]; cbn [app]; ring.
Qed.

Definition kap (dim : Z) : R := if dim =? 2 then 1%R else (1/2)%R.
Lemma kap_pos dim : (0 < kap dim)%R. Proof. unfold kap; destruct (dim =? 2); lra. Qed.

Lemma raw_side dim vertex F x p : (dim = 2 \/ dim = 3) -> zlen F = dim -> In p F ->
  vdot (raw_normal vertex F) (vsub (V vertex x) (V vertex p)) = (kap dim * side vertex F (V vertex x))%R.
Proof.
  intros [Ed|Ed] HL Hp; rewrite Ed in *; unfold raw_normal, side, kap; cbn [Z.eqb Pos.eqb].
  - destruct (list2 F HL) as (a & b & ->). cbn [map]. cbn in Hp. destruct Hp as [<-|[<-|[]]]; unfold vdot, vsub, turn; cbn [px py pz]; ring.
  - destruct (list3 F HL) as (a & b & c & ->). cbn [map]. cbn in Hp. destruct Hp as [<-|[<-|[<-|[]]]]; unfold vdot, vsub, det4, det, pscal, pcross, psub, vsub; cbn [px py pz]; field.
Qed.

Lemma facet_split dim r F : NoDup r -> zlen r = dim + 1 -> facet_of dim F r -> exists x, Permutation r (x :: F) /\ In x r /\ ~ In x F.
Proof.
  intros Hr HL (HS & HLF & HI). assert (HF : NoDup F) by (apply sorted_lt_NoDup, HS).
  destruct (opposite_one r F Hr HF HI ltac:(lia)) as (x & Ex).
  assert (Hx : In x r /\ ~ In x F).
  { assert (In x (filter (fun y => negb (mem y F)) r)) by (rewrite Ex; left; reflexivity). apply filter_In in H as (H1 & H2). apply negb_true_iff, mem_not_In in H2. auto. }
  exists x. split; [|exact Hx]. apply NoDup_Permutation; [exact Hr | constructor; tauto|]. intros y. split.
  - intros Hy. destruct (mem_spec y F) as [Hm|Hm]; [right; exact Hm|]. left. assert (In y (filter (fun y => negb (mem y F)) r)) by (apply filter_In; split; [exact Hy | apply negb_true_iff, mem_not_In; exact Hm]).
    rewrite Ex in H. destruct H as [->|[]]; reflexivity.
  - intros [<-|Hy]; [tauto | apply HI; exact Hy].
Qed.

Section G3.
Context (dim : Z) (vertex : list pt) (namen : list Z) (nodeid : list (list Z)).
Hypothesis WF : wf_mesh dim (zlen vertex) nodeid.
Context (cn : conn).
Hypothesis Hcn : build_faces dim (ocells dim vertex nodeid) = Ok cn.
Notation FG := (facegeo_of dim vertex namen nodeid cn).
Notation Fn f := (nthZ [] (cn_faces cn) f).

Lemma dimR : (0 < IZR dim + 1)%R.
Proof. destruct (wm_dim _ _ _ WF) as [-> | ->]; lra. Qed.

Lemma center_side c F x : iscell nodeid c -> Permutation (cell nodeid c) (x :: F) -> zlen F = dim ->
  vdot (vsub (centerc dim vertex nodeid c) (mid vertex F)) (raw_normal vertex F) = (kap dim / (IZR dim + 1) * side vertex F (V vertex x))%R.
Proof.
  intros Hc P HLF. unfold centerc, cellgeo_of.
  assert (S : forall h : Z -> R, Rsum (map h (cell nodeid c)) = Rsum (map h (x :: F))) by (intros h; apply Rsum_perm, Permutation_map, P).
  assert (HL : zlen (cell nodeid c) = dim + 1) by (apply (wm_rows _ _ _ WF), nthZ_In, Hc).
  unfold kap. destruct (wm_dim _ _ _ WF) as [Ed|Ed]; rewrite Ed in *; cbn [Z.eqb Pos.eqb].
  - destruct (list3 _ HL) as (r0 & r1 & r2 & Er). rewrite Er in *. destruct (list2 F HLF) as (a & b & ->).
    pose proof (S (fun k => px (V vertex k))) as SX. pose proof (S (fun k => py (V vertex k))) as SY. cbn [map Rsum fold_right] in SX, SY.
    unfold cellgeo2, mid, raw_normal, side. cbn [map cg_center]. change (nthZ 0 [r0; r1; r2] 0) with r0. change (nthZ 0 [r0; r1; r2] 1) with r1. change (nthZ 0 [r0; r1; r2] 2) with r2.
    unfold vdot, vsub, pscal, padd, turn. cbn [px py pz].
    replace (px (V vertex r0) + px (V vertex r1) + px (V vertex r2))%R with (px (V vertex x) + px (V vertex a) + px (V vertex b))%R by lra.
    replace (py (V vertex r0) + py (V vertex r1) + py (V vertex r2))%R with (py (V vertex x) + py (V vertex a) + py (V vertex b))%R by lra.
    field.
  - destruct (list4 _ HL) as (r0 & r1 & r2 & r3 & Er). rewrite Er in *. destruct (list3 F HLF) as (a & b & c' & ->).
    pose proof (S (fun k => px (V vertex k))) as SX. pose proof (S (fun k => py (V vertex k))) as SY. pose proof (S (fun k => pz (V vertex k))) as SZ. cbn [map Rsum fold_right] in SX, SY, SZ.
    unfold cellgeo3, mid, raw_normal, side. cbn [map cg_center]. change (nthZ 0 [r0; r1; r2; r3] 0) with r0. change (nthZ 0 [r0; r1; r2; r3] 1) with r1. change (nthZ 0 [r0; r1; r2; r3] 2) with r2. change (nthZ 0 [r0; r1; r2; r3] 3) with r3.
    unfold vdot, vsub, pscal, padd, pcross, psub, det4, det, vsub. cbn [px py pz].
    replace (px (V vertex r0) + px (V vertex r1) + px (V vertex r2) + px (V vertex r3))%R with (px (V vertex x) + px (V vertex a) + px (V vertex b) + px (V vertex c'))%R by lra.
    replace (py (V vertex r0) + py (V vertex r1) + py (V vertex r2) + py (V vertex r3))%R with (py (V vertex x) + py (V vertex a) + py (V vertex b) + py (V vertex c'))%R by lra.
    replace (pz (V vertex r0) + pz (V vertex r1) + pz (V vertex r2) + pz (V vertex r3))%R with (pz (V vertex x) + pz (V vertex a) + pz (V vertex b) + pz (V vertex c'))%R by lra.
    field.
Qed.

Lemma nonflat_side c F x : Permutation (cell nodeid c) (x :: F) -> zlen F = dim -> nonflat dim vertex (cell nodeid c) -> side vertex F (V vertex x) <> 0%R.
Proof.
  intros P HLF HNF. unfold nonflat in HNF. apply (Permutation_map (V vertex)) in P. cbn [map] in P. unfold side.
  destruct (wm_dim _ _ _ WF) as [Ed|Ed]; rewrite Ed in *.
  - destruct (list2 F HLF) as (a & b & ->). cbn [map] in *. destruct (map (V vertex) (cell nodeid c)) as [|u [|v [|w [|? [|]]]]]; try contradiction; [|destruct HNF; lia].
    destruct HNF as (_ & HNF). intros E. apply HNF.
    (* the square of turn is symmetric *)
    assert (Sq : Rsum [0%R] = 0%R) by (cbn; lra). clear Sq.
    pose (Q := fun l : list pt => match l with [p; q; r] => Rabs (turn p q r) | _ => 0%R end).
    assert (HQ : forall l l', Permutation l l' -> Q l = Q l').
    { intros l l' P'. apply Permutation_Permutation_transp in P'. induction P' as [l|p q l1 l2|l l' l'' _ IH1 _ IH2]; [reflexivity | | congruence].
      destruct l1 as [|e [|e' l1]]; cbn [app Q]; [destruct l2 as [|e [|e' l2]] | destruct l2 as [|e' l2] | destruct l1 as [|e2 [|e3 l1]]]; cbn [app Q]; try reflexivity; rewrite <- Rabs_Ropp; f_equal; unfold turn; ring. }
    pose proof (HQ _ _ P) as EQ. cbn [Q] in EQ.
    assert (E0 : turn (V vertex x) (V vertex a) (V vertex b) = 0%R) by (rewrite <- E; unfold turn; ring). rewrite E0, Rabs_R0 in EQ.
    destruct (Req_dec (turn u v w) 0) as [Z|Z]; [exact Z|]. apply Rabs_no_R0 in Z. congruence.
  - destruct (list3 F HLF) as (a & b & c' & ->). cbn [map] in *. destruct (map (V vertex) (cell nodeid c)) as [|u [|v [|w [|z [|]]]]]; try contradiction; [destruct HNF; lia|].
    destruct HNF as (_ & HNF). intros E. apply HNF.
    assert (EQ : Rabs (det4 u v w z) = Rabs (det4 (V vertex x) (V vertex a) (V vertex b) (V vertex c'))).
    { apply (list4_perm_ind (fun a b c d => Rabs (det4 a b c d))); [| | | exact P]; intros; rewrite <- Rabs_Ropp; f_equal; unfold det4, det, vsub; cbn [px py pz]; ring. }
    assert (E0 : det4 (V vertex x) (V vertex a) (V vertex b) (V vertex c') = 0%R).
    { transitivity (- det4 (V vertex a) (V vertex b) (V vertex c') (V vertex x))%R; [unfold det4, det, vsub; cbn [px py pz]; ring | rewrite E; ring]. }
    rewrite E0, Rabs_R0 in EQ. destruct (Req_dec (det4 u v w z) 0) as [Z|Z]; [exact Z|]. apply Rabs_no_R0 in Z. congruence.
Qed.

Lemma face_facet f c : 0 <= f < zlen (cn_faces cn) -> has_facet dim nodeid c (Fn f) -> exists x, Permutation (cell nodeid c) (x :: Fn f) /\ In x (cell nodeid c) /\ ~ In x (Fn f).
Proof. intros Hf (Hc & HF). destruct (wm_rows _ _ _ WF (cell nodeid c)) as (HL & HND & _); [apply nthZ_In; exact Hc|]. eapply facet_split; eauto. Qed.

Lemma left_has f : 0 <= f < zlen (cn_faces cn) -> has_facet dim nodeid (cleft cn f) (Fn f).
Proof.
  intros Hf. destruct (c12 dim (zlen vertex) (ocells dim vertex nodeid) (WFo dim vertex nodeid WF)) as (cn' & E' & HL & H12). rewrite Hcn in E'. injection E' as <-.
  destruct (H12 f Hf) as (a & b & Eab & Ha & _). unfold cleft. rewrite Eab. change (nthZ 0 [a; b] 0) with a. apply (has_facet_o dim vertex nodeid WF). exact Ha.
Qed.

(** sign of the stored normal relative to the raw one *)
Lemma normal_eps f : 0 <= f < zlen (cn_faces cn) -> exists e : R, (e = 1 \/ e = -1)%R /\ fg_normal (FG f) = pscal e (raw_normal vertex (Fn f)) /\
  forall x, Permutation (cell nodeid (cleft cn f)) (x :: Fn f) -> (e * side vertex (Fn f) (V vertex x) <= 0)%R.
Proof.
  intros Hf. destruct (normal_cases dim vertex namen nodeid WF cn Hcn f Hf) as (Hn & Hd). cbv zeta in Hn, Hd.
  destruct (face_row dim vertex nodeid WF cn Hcn f Hf) as (HLF & _ & _).
  pose proof (left_has f Hf) as (HcL & _).
  assert (He : exists e : R, (e = 1 \/ e = -1)%R /\ fg_normal (FG f) = pscal e (raw_normal vertex (Fn f))).
  { destruct Hn as [-> | ->]; [exists 1%R | exists (-1)%R]; (split; [auto|]); [pteq; ring | reflexivity]. }
  destruct He as (e & He & En). exists e. split; [exact He|]. split; [exact En|]. intros x P. rewrite En in Hd.
  change (fg_center (FG f)) with (mid vertex (Fn f)) in Hd.
  assert (Ed : vdot (vsub (centerc dim vertex nodeid (cleft cn f)) (mid vertex (Fn f))) (pscal e (raw_normal vertex (Fn f))) = (e * (kap dim / (IZR dim + 1) * side vertex (Fn f) (V vertex x)))%R).
  { rewrite <- (center_side (cleft cn f) (Fn f) x HcL P HLF). unfold vdot, pscal. cbn [px py pz]. ring. }
  rewrite Ed in Hd. pose proof (kap_pos dim). pose proof dimR.
  assert (0 < kap dim / (IZR dim + 1))%R by (apply Rdiv_lt_0_compat; assumption). nra.
Qed.

Lemma left_strict f : 0 <= f < zlen (cn_faces cn) -> nonflat dim vertex (cell nodeid (cleft cn f)) ->
  (vdot (vsub (centerc dim vertex nodeid (cleft cn f)) (fg_center (FG f))) (fg_normal (FG f)) < 0)%R.
Proof.
  intros Hf HNF. destruct (normal_eps f Hf) as (e & He & En & Hs). destruct (face_row dim vertex nodeid WF cn Hcn f Hf) as (HLF & _ & _).
  pose proof (left_has f Hf) as HcL. destruct (face_facet f _ Hf HcL) as (x & P & _).
  pose proof (nonflat_side _ _ x P HLF HNF) as Hne. specialize (Hs x P). rewrite En. change (fg_center (FG f)) with (mid vertex (Fn f)).
  assert (Ed : vdot (vsub (centerc dim vertex nodeid (cleft cn f)) (mid vertex (Fn f))) (pscal e (raw_normal vertex (Fn f))) = (kap dim / (IZR dim + 1) * (e * side vertex (Fn f) (V vertex x)))%R).
  { rewrite <- Rmult_assoc, (Rmult_comm _ e), Rmult_assoc. rewrite <- (center_side (cleft cn f) (Fn f) x (proj1 HcL) P HLF). unfold vdot, pscal. cbn [px py pz]. ring. }
  rewrite Ed. pose proof (kap_pos dim). pose proof dimR. assert (0 < kap dim / (IZR dim + 1))%R by (apply Rdiv_lt_0_compat; assumption).
  assert (e * side vertex (Fn f) (V vertex x) <> 0)%R by (destruct He as [-> | ->]; lra). nra.
Qed.

(** ** closing *)
Definition outward (r : list Z) (F : list Z) (w : pt) : Prop :=
  (w = raw_normal vertex F \/ w = pscal (-1) (raw_normal vertex F)) /\
  (forall x p, In x r -> ~ In x F -> In p F -> (vdot w (vsub (V vertex x) (V vertex p)) < 0)%R).

Lemma outward_perm r F G w : Permutation F G -> outward r F w -> outward r G w.
Proof.
  intros P (Hw & H). split.
  - destruct (raw_perm vertex F G P) as [E|E], Hw as [W|W]; rewrite W, E; [left | right | right | left]; try reflexivity. pteq; ring.
  - intros x p Hx HxG Hp. apply H; [exact Hx | intros HxF; apply HxG; eapply Permutation_in; eauto | eapply Permutation_in; [symmetry; exact P | exact Hp]].
Qed.

Lemma closing r (w : Z -> pt) : zlen r = dim + 1 -> NoDup r ->
  (forall j, 0 <= j < dim + 1 -> outward r (nthZ [] (local_facets dim r) j) (w j)) -> vsum (map w (range (dim + 1))) = vzero.
Proof.
  intros HL HND H. destruct (wm_dim _ _ _ WF) as [Ed|Ed]; rewrite Ed in *.
  - destruct (list3 r HL) as (n0 & n1 & n2 & ->). destruct (nodup3 _ _ _ HND) as (D1 & D2 & D3).
    change (range (2 + 1)) with [0; 1; 2]. cbn [map vsum fold_right].
    pose proof (H 0 ltac:(lia)) as (W0 & S0). pose proof (H 1 ltac:(lia)) as (W1 & S1). pose proof (H 2 ltac:(lia)) as (W2 & S2).
    change (nthZ [] (local_facets 2 [n0; n1; n2]) 0) with [n0; n1] in *. change (nthZ [] (local_facets 2 [n0; n1; n2]) 1) with [n1; n2] in *. change (nthZ [] (local_facets 2 [n0; n1; n2]) 2) with [n2; n0] in *.
    specialize (S0 n2 n0 ltac:(cbn; auto) ltac:(cbn; intuition) ltac:(cbn; auto)).
    specialize (S1 n0 n1 ltac:(cbn; auto) ltac:(cbn; intuition) ltac:(cbn; auto)).
    specialize (S2 n1 n2 ltac:(cbn; auto) ltac:(cbn; intuition) ltac:(cbn; auto)).
    unfold raw_normal in W0, W1, W2. cbn [map] in W0, W1, W2.
    generalize dependent (V vertex n0). intros a. generalize dependent (V vertex n1). intros b. generalize dependent (V vertex n2). intros c. intros.
    pose (T := turn a b c).
    destruct W0 as [W0|W0], W1 as [W1|W1], W2 as [W2|W2]; rewrite W0, W1, W2 in *; unfold vdot, vsub, pscal in S0, S1, S2; cbn [px py pz] in S0, S1, S2;
      try (exfalso; unfold turn in T; lra); clear; unfold vadd, vzero, pscal; pteq; ring.
  - destruct (list4 r HL) as (n0 & n1 & n2 & n3 & ->). destruct (nodup4 _ _ _ _ HND) as (D1 & D2 & D3 & D4 & D5 & D6).
    change (range (3 + 1)) with [0; 1; 2; 3]. cbn [map vsum fold_right].
    pose proof (H 0 ltac:(lia)) as (W0 & S0). pose proof (H 1 ltac:(lia)) as (W1 & S1). pose proof (H 2 ltac:(lia)) as (W2 & S2). pose proof (H 3 ltac:(lia)) as (W3 & S3).
    change (nthZ [] (local_facets 3 [n0; n1; n2; n3]) 0) with [n0; n1; n2] in *. change (nthZ [] (local_facets 3 [n0; n1; n2; n3]) 1) with [n2; n3; n0] in *.
    change (nthZ [] (local_facets 3 [n0; n1; n2; n3]) 2) with [n0; n1; n3] in *. change (nthZ [] (local_facets 3 [n0; n1; n2; n3]) 3) with [n3; n1; n2] in *.
    specialize (S0 n3 n0 ltac:(cbn; auto) ltac:(cbn; intuition) ltac:(cbn; auto)).
    specialize (S1 n1 n2 ltac:(cbn; auto) ltac:(cbn; intuition) ltac:(cbn; auto)).
    specialize (S2 n2 n0 ltac:(cbn; auto) ltac:(cbn; intuition) ltac:(cbn; auto)).
    specialize (S3 n0 n3 ltac:(cbn; auto) ltac:(cbn; intuition) ltac:(cbn; auto)).
    unfold raw_normal in W0, W1, W2, W3. cbn [map] in W0, W1, W2, W3.
    generalize dependent (V vertex n0). intros a. generalize dependent (V vertex n1). intros b. generalize dependent (V vertex n2). intros c. generalize dependent (V vertex n3). intros d. intros.
    pose (D := (det4 a b c d / 2)%R).
    destruct W0 as [W0|W0], W1 as [W1|W1], W2 as [W2|W2], W3 as [W3|W3]; rewrite W0, W1, W2, W3 in *; unfold vdot, vsub, pscal, pcross, psub in S0, S1, S2, S3; cbn [px py pz] in S0, S1, S2, S3;
      try (exfalso; lra); clear; unfold vadd, vzero, pscal, pcross, psub; pteq; field.
Qed.

Lemma center_outward c F w : iscell nodeid c -> has_facet dim nodeid c F -> (w = raw_normal vertex F \/ w = pscal (-1) (raw_normal vertex F)) ->
  (vdot (vsub (centerc dim vertex nodeid c) (mid vertex F)) w < 0)%R -> outward (cell nodeid c) F w.
Proof.
  intros Hc (_ & HF) Hw Hd. split; [exact Hw|]. intros x p Hx HxF Hp.
  destruct (wm_rows _ _ _ WF (cell nodeid c)) as (HL & HND & _); [apply nthZ_In; exact Hc|].
  destruct (facet_split dim _ F HND HL HF) as (x' & P & Hx' & HxF').
  assert (x = x') as <-. { apply (Permutation_in _ P) in Hx. destruct Hx as [<-|Hx]; [reflexivity | contradiction]. }
  destruct HF as (_ & HLF & _).
  pose proof (center_side c F x Hc P HLF) as E1. pose proof (raw_side dim vertex F x p (wm_dim _ _ _ WF) HLF Hp) as E2.
  pose proof (kap_pos dim). pose proof dimR. assert (Hk : (0 < kap dim / (IZR dim + 1))%R) by (apply Rdiv_lt_0_compat; assumption).
  set (s := side vertex F (V vertex x)) in *. set (d := vsub (centerc dim vertex nodeid c) (mid vertex F)) in *.
  destruct Hw as [-> | ->].
  - rewrite E2. rewrite E1 in Hd. assert (s < 0)%R by nra. nra.
  - rewrite vdot_opp, E2. assert (Ed : vdot d (pscal (-1) (raw_normal vertex F)) = (- vdot d (raw_normal vertex F))%R) by (unfold vdot, pscal; cbn [px py pz]; ring).
    rewrite Ed, E1 in Hd. assert (0 < s)%R by nra. nra.
Qed.
Lemma center_nonzero c F : has_facet dim nodeid c F -> nonflat dim vertex (cell nodeid c) -> vdot (vsub (centerc dim vertex nodeid c) (mid vertex F)) (raw_normal vertex F) <> 0%R.
Proof.
  intros (Hc & HF) HNF. destruct (wm_rows _ _ _ WF (cell nodeid c)) as (HL & HND & _); [apply nthZ_In; exact Hc|].
  destruct (facet_split dim _ F HND HL HF) as (x & P & _). destruct HF as (_ & HLF & _). rewrite (center_side c F x Hc P HLF).
  pose proof (nonflat_side c F x P HLF HNF) as Hn. pose proof (kap_pos dim). pose proof dimR. assert (Hk : (0 < kap dim / (IZR dim + 1))%R) by (apply Rdiv_lt_0_compat; assumption).
  intros E. apply Hn. apply Rmult_integral in E. destruct E; [lra | assumption].
Qed.

(** out_normal (2D nf) is outward *)
Lemma out_normal_spec c f : iscell nodeid c -> 0 <= f < zlen (cn_faces cn) -> has_facet dim nodeid c (Fn f) -> nonflat dim vertex (cell nodeid c) ->
  let w := out_normal dim vertex namen nodeid cn c f in
  (w = fg_normal (FG f) \/ w = pscal (-1) (fg_normal (FG f))) /\ (w = raw_normal vertex (Fn f) \/ w = pscal (-1) (raw_normal vertex (Fn f))) /\
  (vdot (vsub (centerc dim vertex nodeid c) (mid vertex (Fn f))) w < 0)%R.
Proof.
  intros Hc Hf HF HNF w. pose proof (center_nonzero c (Fn f) HF HNF) as Hne.
  destruct (normal_cases dim vertex namen nodeid WF cn Hcn f Hf) as (Hn & _). cbv zeta in Hn. unfold w, out_normal. cbv zeta.
  change (fg_center (FG f)) with (mid vertex (Fn f)). change (psub (centerc dim vertex nodeid c) (mid vertex (Fn f))) with (vsub (centerc dim vertex nodeid c) (mid vertex (Fn f))).
  set (d := vsub (centerc dim vertex nodeid c) (mid vertex (Fn f))) in *. set (n := fg_normal (FG f)) in *. change (pdot d n) with (vdot d n).
  assert (Hop : forall v, vdot d (pscal (-1) v) = (- vdot d v)%R) by (intros v; unfold vdot, pscal; cbn [px py pz]; ring).
  assert (Hnn : vdot d n <> 0%R) by (destruct Hn as [-> | ->]; [exact Hne | rewrite Hop; lra]).
  destruct (Rlt_dec (vdot d n) 0) as [Hl|Hg].
  - split; [auto|]. split; [exact Hn | exact Hl].
  - split; [auto|]. split; [|rewrite Hop; lra]. destruct Hn as [-> | ->]; [auto | left; pteq; ring].
Qed.

(** the solver's convention: the stored normal for the left cell, its opposite for the other one *)
Definition signed (c f : Z) : pt := if c =? cleft cn f then fg_normal (FG f) else pscal (-1) (fg_normal (FG f)).
Lemma signed_outward c f : proper dim vertex nodeid -> iscell nodeid c -> 0 <= f < zlen (cn_faces cn) -> has_facet dim nodeid c (Fn f) ->
  (forall k, iscell nodeid k -> nonflat dim vertex (cell nodeid k)) -> outward (cell nodeid c) (Fn f) (signed c f).
Proof.
  intros HP Hc Hf HF HNF. unfold signed. pose proof (left_has f Hf) as HLf. pose proof (left_strict f Hf (HNF _ (proj1 HLf))) as HS.
  destruct (normal_cases dim vertex namen nodeid WF cn Hcn f Hf) as (Hn & _). cbv zeta in Hn.
  assert (HO : outward (cell nodeid (cleft cn f)) (Fn f) (fg_normal (FG f))) by (apply center_outward; [exact (proj1 HLf) | exact HLf | exact Hn | exact HS]).
  destruct (Z.eqb_spec c (cleft cn f)) as [->|Hne]; [exact HO|].
  destruct HO as (_ & HO). split; [destruct Hn as [-> | ->]; [auto | left; pteq; ring]|].
  intros x p Hx HxF Hp. rewrite vdot_opp.
  destruct (face_facet f _ Hf HLf) as (y & _ & Hy & HyF). specialize (HO y p Hy HyF Hp). specialize (HP (Fn f) c (cleft cn f) x y HF HLf Hne Hx HxF Hy HyF).
  destruct (face_row dim vertex nodeid WF cn Hcn f Hf) as (HLF & _ & _).
  pose proof (raw_side dim vertex (Fn f) x p (wm_dim _ _ _ WF) HLF Hp) as Ex. pose proof (raw_side dim vertex (Fn f) y p (wm_dim _ _ _ WF) HLF Hp) as Ey.
  pose proof (kap_pos dim). set (sx := side vertex (Fn f) (V vertex x)) in *. set (sy := side vertex (Fn f) (V vertex y)) in *.
  destruct Hn as [Hn|Hn]; rewrite Hn in *; rewrite ?vdot_opp in HO |- *; rewrite Ex; rewrite Ey in HO.
  - assert (sy < 0)%R by nra. assert (0 < sx)%R by nra. nra.
  - assert (0 < sy)%R by nra. assert (sx < 0)%R by nra. nra.
Qed.

Lemma close_cell c (w : Z -> pt) : iscell nodeid c ->
  (forall f, 0 <= f < zlen (cn_faces cn) -> has_facet dim nodeid c (Fn f) -> outward (cell nodeid c) (Fn f) (w f)) ->
  vsum (map w (nthZ [] (cn_faceid cn) c)) = vzero.
Proof.
  intros Hc H. destruct (faceid_row dim vertex nodeid WF cn Hcn c Hc) as (HLf & _ & Hrow).
  set (fs := nthZ [] (cn_faceid cn) c) in *. rewrite <- (map_range_nth 0 w fs), HLf.
  destruct (wm_rows _ _ _ (WFo dim vertex nodeid WF) (cell (ocells dim vertex nodeid) c)) as (HL & HND & _); [apply nthZ_In, (iscell_o dim vertex nodeid), Hc|].
  apply (closing (cell (ocells dim vertex nodeid) c) (fun j => w (nthZ 0 fs j)) HL HND).
  intros j Hj. destruct (Hrow j Hj) as (Hf & P). apply (outward_perm _ _ _ _ P).
  assert (HF : has_facet dim nodeid c (Fn (nthZ 0 fs j))).
  { destruct (c11 dim (zlen vertex) (ocells dim vertex nodeid) (WFo dim vertex nodeid WF)) as (cn' & E & _ & _ & _ & H11). rewrite Hcn in E. injection E as <-.
    destruct (H11 c) as (fs' & Efs & Hlen & _ & Hin & _); [apply (iscell_o dim vertex nodeid), Hc|]. fold fs in Efs. subst fs'. apply (has_facet_o dim vertex nodeid WF).
    apply Hin; [exact Hf|]. apply nthZ_In. lia. }
  destruct (H _ Hf HF) as (A & B). split; [exact A|]. intros x p Hx. apply B. eapply Permutation_in; [apply (ocell_perm dim vertex nodeid WF c Hc) | exact Hx].
Qed.
End G3.

Lemma has_of_faceid dim vertex nodeid cn c f : wf_mesh dim (zlen vertex) nodeid -> build_faces dim (ocells dim vertex nodeid) = Ok cn -> iscell nodeid c ->
  In f (nthZ [] (cn_faceid cn) c) -> 0 <= f < zlen (cn_faces cn) /\ has_facet dim nodeid c (nthZ [] (cn_faces cn) f).
Proof.
  intros WF Hcn Hc Hin. destruct (faceid_row dim vertex nodeid WF cn Hcn c Hc) as (HLf & _ & Hrow).
  destruct (In_nthZ 0 _ _ Hin) as (j & Hj & <-). rewrite HLf in Hj. destruct (Hrow j Hj) as (Hf & _). split; [exact Hf|].
  destruct (c11 dim (zlen vertex) (ocells dim vertex nodeid) (WFo dim vertex nodeid WF)) as (cn' & E & _ & _ & _ & H11). rewrite Hcn in E. injection E as <-.
  destruct (H11 c) as (fs' & Efs & Hlen & _ & Hin' & _); [apply (iscell_o dim vertex nodeid), Hc|]. subst fs'. apply (has_facet_o dim vertex nodeid WF). apply Hin'; [exact Hf|]. apply nthZ_In. lia.
Qed.

(** ** C19 *)
Lemma mid_bary vertex F : zlen F = 2 \/ zlen F = 3 -> mid vertex F = barycentre (map (at_node vertex) F).
Proof.
  unfold mid, barycentre. intros [H|H].
  - destruct (list2 F H) as (a & b & ->). cbn [map]. change (zlen [V vertex a; V vertex b]) with 2. unfold vsum; cbn [fold_right]. pteq; lra.
  - destruct (list3 F H) as (a & b & c & ->). cbn [map]. change (zlen [V vertex a; V vertex b; V vertex c]) with 3. unfold vsum; cbn [fold_right]. pteq; lra.
Qed.

Lemma c19 dim vertex namen nodeid : wf_mesh dim (zlen vertex) nodeid -> zlen namen = zlen vertex ->
  exists g, build_geometry dim nodeid vertex namen = Ok g /\ zlen (ge_faces g) = zlen (cn_faces (ge_conn g)) /\
  forall f, 0 <= f < zlen (cn_faces (ge_conn g)) ->
    let F := nthZ [] (cn_faces (ge_conn g)) f in let fg := nthZ fg0 (ge_faces g) f in
    (forall x y, In x F -> In y F -> vdot (fg_normal fg) (vsub (at_node vertex x) (at_node vertex y)) = 0%R) /\
    fg_mesure fg = vlen (fg_normal fg) /\
    (dim = 3 \/ planar vertex -> fg_mesure fg = facet_measure vertex F) /\
    fg_center fg = barycentre (map (at_node vertex) F) /\
    exists a b, nthZ [] (cn_cellid (ge_conn g)) f = [a; b] /\
      let centre c := cg_center (nthZ (cg0 []) (ge_cells g) c) in
      (0 <= vdot (vsub (fg_center fg) (centre a)) (fg_normal fg))%R /\
      (nonflat dim vertex (cell nodeid a) -> 0 < vdot (vsub (fg_center fg) (centre a)) (fg_normal fg))%R /\
      (proper dim vertex nodeid -> (forall k, iscell nodeid k -> nonflat dim vertex (cell nodeid k)) -> b <> -1 ->
         (0 < vdot (vsub (centre b) (fg_center fg)) (fg_normal fg))%R).
Proof.
  intros WF HN. destruct (build_geometry_ok dim vertex namen nodeid WF HN) as (cn & g & E & Hcn & <- & Ec & Ef & _). exists g. split; [exact E|]. rewrite Ef, Ec. set (cn := ge_conn g) in *.
  split; [rewrite zlen_map, zlen_range; [reflexivity | apply zlen_nonneg]|]. intros f Hf. cbv zeta.
  rewrite (nthZ_map _ 0) by (rewrite zlen_range; lia). rewrite nthZ_range by lia.
  destruct (face_row dim vertex nodeid WF cn Hcn f Hf) as (HLF & _ & _). destruct (cellid_row dim vertex nodeid WF cn Hcn f Hf) as (Eab & Ha & _).
  split; [intros x y; apply (normal_orth dim vertex namen nodeid WF cn Hcn f x y Hf)|].
  destruct (mesure_len dim vertex namen nodeid WF cn Hcn f Hf) as (M1 & M2). split; [exact M1|]. split; [exact M2|].
  split; [apply mid_bary; destruct (wm_dim _ _ _ WF); [left|right]; lia|].
  exists (cleft cn f), (cright cn f). split; [exact Eab|].
  assert (Hop : forall a b n, vdot (vsub a b) n = (- vdot (vsub b a) n)%R) by (intros; unfold vdot, vsub; cbn [px py pz]; ring).
  assert (Hce : forall c, iscell nodeid c -> cg_center (nthZ (cg0 []) (map (cellgeo_of dim vertex) nodeid) c) = centerc dim vertex nodeid c) by (intros c Hc; rewrite (nthZ_map _ []) by exact Hc; reflexivity).
  rewrite (Hce _ Ha). split; [|split].
  - rewrite Hop. pose proof (proj2 (normal_cases dim vertex namen nodeid WF cn Hcn f Hf)) as H. cbv zeta in H. lra.
  - intros HNF. rewrite Hop. pose proof (left_strict dim vertex namen nodeid WF cn Hcn f Hf HNF). lra.
  - intros HP HNF Hb.
    destruct (c12 dim (zlen vertex) (ocells dim vertex nodeid) (WFo dim vertex nodeid WF)) as (cn' & E' & _ & H12). rewrite Hcn in E'. injection E' as <-.
    destruct (H12 f Hf) as (a & b & Eab' & _ & _ & _ & Hb' & _). rewrite Eab in Eab'. injection Eab' as <- <-. destruct (Hb' Hb) as (Hlt & HFb). apply (has_facet_o dim vertex nodeid WF) in HFb.
    rewrite (Hce _ (proj1 HFb)).
    pose proof (signed_outward dim vertex namen nodeid WF cn Hcn (cright cn f) f HP (proj1 HFb) Hf HFb HNF) as (_ & HO). unfold signed in HO. replace (cright cn f =? cleft cn f) with false in HO by lia.
    destruct (face_facet dim vertex nodeid WF cn f (cright cn f) Hf HFb) as (y & P & Hy & HyF).
    assert (Hp : exists p, In p (nthZ [] (cn_faces cn) f)). { destruct (nthZ [] (cn_faces cn) f) as [|p l]; [unfold zlen in HLF; cbn in HLF; destruct (wm_dim _ _ _ WF); lia | exists p; left; reflexivity]. }
    destruct Hp as (p & Hp). specialize (HO y p Hy HyF Hp). rewrite vdot_opp in HO.
    destruct (normal_eps dim vertex namen nodeid WF cn Hcn f Hf) as (e & He & En & _).
    change (fg_center (facegeo_of dim vertex namen nodeid cn f)) with (mid vertex (nthZ [] (cn_faces cn) f)). rewrite En in *.
    pose proof (center_side dim vertex nodeid WF cn Hcn _ _ _ (proj1 HFb) P HLF) as E1. pose proof (raw_side dim vertex _ y p (wm_dim _ _ _ WF) HLF Hp) as E2.
    assert (S1 : forall u v, vdot u (pscal e v) = (e * vdot u v)%R) by (intros; unfold vdot, pscal; cbn [px py pz]; ring).
    assert (S2 : forall u v, vdot (pscal e u) v = (e * vdot u v)%R) by (intros; unfold vdot, pscal; cbn [px py pz]; ring).
    rewrite S1, E1. rewrite S2, E2 in HO. pose proof (kap_pos dim). assert (Hd3 : (0 < IZR dim + 1)%R) by (destruct (wm_dim _ _ _ WF) as [-> | ->]; lra).
    assert (Hk : (0 < / (IZR dim + 1))%R) by (apply Rinv_0_lt_compat; assumption). unfold Rdiv. set (s := side vertex _ _) in *. nra.
Qed.

(** ** C20 *)
Lemma c20_2d vertex namen nodeid : wf_mesh 2 (zlen vertex) nodeid -> zlen namen = zlen vertex ->
  exists g, build_geometry 2 nodeid vertex namen = Ok g /\ zlen (ge_nf g) = zlen nodeid /\
  forall c, iscell nodeid c -> nonflat 2 vertex (cell nodeid c) ->
    zlen (nthZ [] (ge_nf g) c) = 3 /\ vsum (nthZ [] (ge_nf g) c) = vzero /\
    forall j, 0 <= j < 3 ->
      let fg := nthZ fg0 (ge_faces g) (nthZ 0 (nthZ [] (cn_faceid (ge_conn g)) c) j) in
      let w := nthZ vzero (nthZ [] (ge_nf g) c) j in
      (w = fg_normal fg \/ w = vscal (-1) (fg_normal fg)) /\
      (0 < vdot (vsub (fg_center fg) (cg_center (nthZ (cg0 []) (ge_cells g) c))) w)%R.
Proof.
  intros WF HN. destruct (build_geometry_ok 2 vertex namen nodeid WF HN) as (cn & g & E & Hcn & <- & Ec & Ef & Enf & _). specialize (Enf eq_refl). exists g. split; [exact E|]. rewrite Ef, Ec, Enf. set (cn := ge_conn g) in *.
  split; [rewrite zlen_map, zlen_range; [reflexivity | apply zlen_nonneg]|]. intros c Hc HNF. unfold iscell in Hc.
  rewrite (nthZ_map _ 0) by (rewrite zlen_range; lia). rewrite nthZ_range by lia.
  destruct (faceid_row 2 vertex nodeid WF cn Hcn c Hc) as (HLf & _ & Hrow).
  split; [rewrite zlen_map; exact HLf|]. split.
  - apply (close_cell 2 vertex nodeid WF cn Hcn c _ Hc). intros f Hf HF.
    destruct (out_normal_spec 2 vertex namen nodeid WF cn Hcn c f Hc Hf HF HNF) as (_ & Hw & Hd). eapply center_outward; eassumption.
  - intros j Hj. cbv zeta. rewrite (nthZ_map _ 0) by lia. set (f := nthZ 0 (nthZ [] (cn_faceid cn) c) j).
    destruct (has_of_faceid 2 vertex nodeid cn c f WF Hcn Hc) as (Hf & HF); [apply nthZ_In; lia|].
    rewrite (nthZ_map _ 0) by (rewrite zlen_range; lia). rewrite nthZ_range by lia. rewrite (nthZ_map _ []) by exact Hc.
    destruct (out_normal_spec 2 vertex namen nodeid WF cn Hcn c f Hc Hf HF HNF) as (Hw & _ & Hd). split; [exact Hw|].
    change (cg_center (cellgeo_of 2 vertex (nthZ [] nodeid c))) with (centerc 2 vertex nodeid c).
    assert (Hop : forall a b n, vdot (vsub a b) n = (- vdot (vsub b a) n)%R) by (intros; unfold vdot, vsub; cbn [px py pz]; ring).
    rewrite Hop. change (fg_center (facegeo_of 2 vertex namen nodeid cn f)) with (mid vertex (nthZ [] (cn_faces cn) f)). lra.
Qed.

Lemma c20 dim vertex namen nodeid : wf_mesh dim (zlen vertex) nodeid -> zlen namen = zlen vertex ->
  proper dim vertex nodeid -> (forall k, iscell nodeid k -> nonflat dim vertex (cell nodeid k)) ->
  exists g, build_geometry dim nodeid vertex namen = Ok g /\
  forall c, iscell nodeid c ->
    vsum (map (fun f => let n := fg_normal (nthZ fg0 (ge_faces g) f) in
                        if c =? nthZ 0 (nthZ [] (cn_cellid (ge_conn g)) f) 0 then n else vscal (-1) n)
              (nthZ [] (cn_faceid (ge_conn g)) c)) = vzero.
Proof.
  intros WF HN HP HNF. destruct (build_geometry_ok dim vertex namen nodeid WF HN) as (cn & g & E & Hcn & <- & Ec & Ef & _). exists g. split; [exact E|]. rewrite Ef. set (cn := ge_conn g) in *.
  intros c Hc. transitivity (vsum (map (signed dim vertex namen nodeid cn c) (nthZ [] (cn_faceid cn) c))).
  - f_equal. apply map_ext_in. intros f Hin. destruct (has_of_faceid dim vertex nodeid cn c f WF Hcn Hc Hin) as (Hf & HF).
    cbv zeta. rewrite (nthZ_map _ 0) by (rewrite zlen_range; lia). rewrite nthZ_range by lia. reflexivity.
  - apply (close_cell dim vertex nodeid WF cn Hcn c _ Hc). intros f Hf HF. apply signed_outward; assumption.
Qed.

(** ** C23 *)
Lemma c23 vertex namen nodeid : wf_mesh 3 (zlen vertex) nodeid -> zlen namen = zlen vertex ->
  exists g, build_geometry 3 nodeid vertex namen = Ok g /\ zlen (ge_facenodes g) = zlen (cn_faces (ge_conn g)) /\
  forall f, 0 <= f < zlen (cn_faces (ge_conn g)) -> exists s1 s2 s3, nthZ [] (ge_facenodes g) f = [s1; s2; s3] /\
    Permutation [s1; s2; s3] (nthZ [] (cn_faces (ge_conn g)) f) /\ nthZ 0 (nthZ [] (cn_faces (ge_conn g)) f) 0 = s1 /\
    let a := at_node vertex s1 in let b := at_node vertex s2 in let c := at_node vertex s3 in
    forall w, vdot (fg_normal (nthZ fg0 (ge_faces g) f)) w = (/ 2 * det (vsub b a) (vsub c a) w)%R.
Proof.
  intros WF HN. destruct (build_geometry_ok 3 vertex namen nodeid WF HN) as (cn & g & E & Hcn & <- & Ec & Ef & _ & Eo & _). specialize (Eo eq_refl). exists g. split; [exact E|]. rewrite Ef, Eo. set (cn := ge_conn g) in *.
  split; [rewrite zlen_map, zlen_range; [reflexivity | apply zlen_nonneg]|]. intros f Hf.
  rewrite !(nthZ_map _ 0) by (rewrite zlen_range; lia). rewrite nthZ_range by lia.
  destruct (face_row 3 vertex nodeid WF cn Hcn f Hf) as (HLF & _ & _). pose proof (proj1 (normal_cases 3 vertex namen nodeid WF cn Hcn f Hf)) as Hn.
  unfold oriented. destruct (list3 _ HLF) as (a & b & c & EF). rewrite EF in *.
  set (n := fg_normal (facegeo_of 3 vertex namen nodeid cn f)) in *. unfold raw_normal in Hn. cbn [map] in Hn.
  set (A := V vertex a) in *. set (B := V vertex b) in *. set (C := V vertex c) in *.
  assert (Sq : (0 <= pdot (pcross (psub B A) (psub C A)) (pcross (psub B A) (psub C A)))%R) by (unfold pdot; nra).
  set (X := pcross (psub B A) (psub C A)) in *.
  assert (HX : forall w, vdot X w = det (vsub B A) (vsub C A) w) by (intros w; unfold X, vdot, det, pcross, psub, vsub; cbn [px py pz]; ring).
  destruct (Rlt_dec (pdot X n) 0) as [Hl|Hg].
  - exists a, c, b. split; [reflexivity|]. split; [apply perm_skip, perm_swap|]. split; [reflexivity|]. cbv zeta. fold A B C. intros w.
    assert (En : n = pscal (-1) (pscal (1/2) X)). { destruct Hn as [Hn|Hn]; [|exact Hn]. exfalso. rewrite Hn in Hl. assert (pdot X (pscal (1/2) X) = 1/2 * pdot X X)%R by (unfold pdot, pscal; cbn [px py pz]; ring). lra. }
    rewrite En. transitivity (- / 2 * vdot X w)%R; [unfold vdot, pscal; cbn [px py pz]; lra|]. rewrite HX. unfold det; ring.
  - exists a, b, c. split; [reflexivity|]. split; [reflexivity|]. split; [reflexivity|]. cbv zeta. fold A B C. intros w.
    assert (En : n = pscal (1/2) X).
    { destruct Hn as [Hn|Hn]; [exact Hn|]. assert (Ep : pdot X (pscal (-1) (pscal (1/2) X)) = (- (1/2) * pdot X X)%R) by (unfold pdot, pscal; cbn [px py pz]; ring).
      rewrite Hn, Ep in Hg. assert (Z0 : pdot X X = 0%R) by lra. unfold pdot in Z0.
      assert (px X = 0 /\ py X = 0 /\ pz X = 0)%R as (X1 & X2 & X3) by (repeat split; nra).
      rewrite Hn. pteq; rewrite ?X1, ?X2, ?X3; ring. }
    rewrite En. rewrite <- HX. unfold vdot, pscal; cbn [px py pz]; lra.
Qed.
