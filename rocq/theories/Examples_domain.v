(** * Examples_domain: data meeting the hypotheses of C66: the unit square cut in two triangles and two tetrahedra (one rank), and the first
    triangle of the square as one of two ranks, the other triangle being a halo cell. *)
From Coq Require Import Reals Permutation Sorted Lra.
From Verif Require Import Py PyLemmas Model_part Model_conn Spec_conn Proofs_conn2 Properties_conn Model_geom Spec_geom Properties_geom Model_halo Spec_halo Properties_halo Model_interp
  Model_domain Spec_domain Properties_domain.
Open Scope Z_scope.

(** labels of two opposite sides only: every facet gets one of them *)
Lemma two_labels_2d ls : ls <> [] -> (forall x, In x ls -> x = 3 \/ x = 4) -> 3 <= face_label (priority 2) ls <= 4.
Proof.
  intros N H. unfold face_label. destruct ls as [|v t]; [contradiction|]. pose proof (H v (or_introl eq_refl)) as Hv. destruct (forallb (Z.eqb v) t); [lia|].
  assert (M0 : mem 0 (v :: t) = false) by (apply mem_not_In; intros X; specialize (H 0 X); lia). rewrite M0. change (priority 2) with [3; 4; 33; 44]. cbn [find].
  destruct (mem 3 (v :: t)) eqn:M3; [lia|]. apply mem_not_In in M3. assert (v = 4) as -> by (destruct Hv as [-> | ->]; [contradiction M3; left; reflexivity | reflexivity]).
  assert (M4 : mem 4 (4 :: t) = true) by reflexivity. rewrite M4. lia.
Qed.
Lemma two_labels_3d ls : ls <> [] -> (forall x, In x ls -> x = 5 \/ x = 6) -> 5 <= face_label (priority 3) ls <= 6.
Proof.
  intros N H. unfold face_label. destruct ls as [|v t]; [contradiction|]. pose proof (H v (or_introl eq_refl)) as Hv. destruct (forallb (Z.eqb v) t); [lia|].
  assert (M0 : mem 0 (v :: t) = false) by (apply mem_not_In; intros X; specialize (H 0 X); lia). rewrite M0. change (priority 3) with [5; 6; 3; 4; 55; 66; 33; 44]. cbn [find].
  destruct (mem 5 (v :: t)) eqn:M5; [lia|]. apply mem_not_In in M5. assert (v = 6) as -> by (destruct Hv as [-> | ->]; [contradiction M5; left; reflexivity | reflexivity]).
  assert (M6 : mem 6 (6 :: t) = true) by reflexivity. rewrite M6. lia.
Qed.
Lemma map_nonempty {A B} (f : A -> B) l n : zlen l = n -> 0 < n -> map f l <> [].
Proof. intros H Hn E. apply map_eq_nil in E. subst l. cbn in H. lia. Qed.
Lemma labelled dim n namen nodeid (lab : Z -> Prop) : wf_mesh dim n nodeid -> zlen namen = n -> (forall l, In l namen -> lab l) -> forall c F x, has_facet dim nodeid c F -> In x (map (nthZ 0 namen) F) -> lab x.
Proof.
  intros WF HL H c F x (Hc & _ & _ & HI) Hx. apply in_map_iff in Hx as (k & <- & Hk). apply H, nthZ_In. rewrite HL. apply (wm_rows _ _ _ WF (cell nodeid c)); [apply nthZ_In; exact Hc | apply HI; exact Hk].
Qed.
Ltac labs H := cbn in H; repeat (destruct H as [<-|H]; [lia|]); destruct H.

Theorem C66_square : valid_rank 2 1 sq sq_v [4; 4; 3; 3] (alone 4 2).
Proof.
  assert (NC : forall F h, ~ cut_by (alone 4 2) F h) by (intros F h (H & _); unfold ishalo in H; cbn in H; lia).
  assert (LB : forall l, In l [4; 4; 3; 3] -> l = 3 \/ l = 4) by (intros l H; labs H).
  constructor.
  - exact sq_wf.
  - cbn; lia.
  - intros k Hk. change (zlen sq_v) with 4 in Hk. assert (Hc : k = 0 \/ k = 1 \/ k = 2 \/ k = 3) by lia. destruct Hc as [-> | [-> | [-> | ->]]]; [exists 0 | exists 0 | exists 0 | exists 1]; (split; [unfold iscell; cbn; lia | vm_compute; auto]).
  - exact sq_nonflat.
  - exact sq_proper.
  - split; [reflexivity|]. intros l H. apply LB in H. lia.
  - intros c F (H & _) _. pose proof (two_labels_2d (map (nthZ 0 [4; 4; 3; 3]) F)) as T. enough (3 <= face_label (priority 2) (map (nthZ 0 [4; 4; 3; 3]) F) <= 4) by lia. apply T.
    + apply (map_nonempty _ _ 2); [exact (proj1 (proj2 (proj2 H))) | lia].
    + intros x Hx. exact (labelled 2 4 [4; 4; 3; 3] sq _ sq_wf eq_refl LB c F x H Hx).
  - lia.
  - reflexivity.
  - intros X; lia.
  - split; [reflexivity | apply NoDup_range].
  - reflexivity.
  - intros c F h x _ H. destruct (NC _ _ H).
  - split; [reflexivity|]. intros k Hk. change (zlen (nthZ [] (zeros_like (@nil pt) 4) k) = zlen (nthZ [] (zeros_like (@nil gentry) 4) k)). rewrite !(Proofs_conn1.nthZ_zeros_like []) by exact Hk. reflexivity.
  - split; [reflexivity|]. split; [cbn; lia|]. intros k e Hk He. exfalso. change (rk_hg (alone 4 2)) with (zeros_like (@nil gentry) 4) in He. rewrite (Proofs_conn1.nthZ_zeros_like []) in He by exact Hk. destruct He.
Qed.
Theorem C66_tetrahedra : valid_rank 3 1 tet2 tt_v [5; 5; 6; 6; 5] (alone 5 2).
Proof.
  assert (NC : forall F h, ~ cut_by (alone 5 2) F h) by (intros F h (H & _); unfold ishalo in H; cbn in H; lia).
  assert (LB : forall l, In l [5; 5; 6; 6; 5] -> l = 5 \/ l = 6) by (intros l H; labs H).
  constructor.
  - exact tt_wf.
  - cbn; lia.
  - intros k Hk. change (zlen tt_v) with 5 in Hk. assert (Hc : k = 0 \/ k = 1 \/ k = 2 \/ k = 3 \/ k = 4) by lia. destruct Hc as [-> | [-> | [-> | [-> | ->]]]]; [exists 0 | exists 0 | exists 0 | exists 0 | exists 1]; (split; [unfold iscell; cbn; lia | vm_compute; auto 6]).
  - exact tt_nonflat.
  - exact tt_proper.
  - split; [reflexivity|]. intros l H. apply LB in H. lia.
  - intros c F (H & _) _. pose proof (two_labels_3d (map (nthZ 0 [5; 5; 6; 6; 5]) F)) as T. enough (5 <= face_label (priority 3) (map (nthZ 0 [5; 5; 6; 6; 5]) F) <= 6) by lia. apply T.
    + apply (map_nonempty _ _ 3); [exact (proj1 (proj2 (proj2 H))) | lia].
    + intros x Hx. exact (labelled 3 5 [5; 5; 6; 6; 5] tet2 _ tt_wf eq_refl LB c F x H Hx).
  - lia.
  - reflexivity.
  - intros X; lia.
  - split; [reflexivity | apply NoDup_range].
  - reflexivity.
  - intros c F h x _ H. destruct (NC _ _ H).
  - split; [reflexivity|]. intros k Hk. change (zlen (nthZ [] (zeros_like (@nil pt) 5) k) = zlen (nthZ [] (zeros_like (@nil gentry) 5) k)). rewrite !(Proofs_conn1.nthZ_zeros_like []) by exact Hk. reflexivity.
  - split; [reflexivity|]. split; [cbn; lia|]. intros k e Hk He. exfalso. change (rk_hg (alone 5 2)) with (zeros_like (@nil gentry) 5) in He. rewrite (Proofs_conn1.nthZ_zeros_like []) in He by exact Hk. destruct He.
Qed.

(** the lower triangle of the square as rank 0 of two; global numbers = local numbers; halo cell 0 is the upper triangle, whose ghost in the
    face y = 1 reaches node 2 *)
Definition tri_rank : rankdata :=
  {| rk_ext := tri_halo; rk_center := [P3 (1 / 3) (2 / 3) 0]; rk_node := [0; 1; 2]; rk_cell := [0];
     rk_hg := [[]; []; [{| g_pt := P3 (1 / 3) (4 / 3) 0; g_cell := 0; g_name := 3; g_last := 0 |}]]; rk_info := [[]; []; [P3 (1 / 2) 1 0]]; rk_nhg := 1 |}.
Theorem C66_triangle_of_two : valid_rank 2 2 tri tri_v [4; 4; 3] tri_rank.
Proof.
  assert (LB : forall l, In l [4; 4; 3] -> l = 3 \/ l = 4) by (intros l H; labs H).
  assert (C0 : forall c, iscell tri c -> c = 0) by (intros c H; unfold iscell in H; change (zlen tri) with 1 in H; lia).
  assert (F02 : has_facet 2 tri 0 [0; 2]). { split; [unfold iscell; cbn; lia|]. split; [repeat constructor; lia|]. split; [reflexivity|]. intros x Hx. change (cell tri 0) with [0; 1; 2]. cbn in Hx |- *. lia. }
  assert (K02 : cut_by tri_rank [0; 2] 0). { split; [unfold ishalo; cbn; lia|]. change (incl [0; 2] [0; 3; 2]). intros x Hx. cbn in Hx |- *. lia. }
  constructor.
  - exact tri_wf.
  - cbn; lia.
  - intros k Hk. change (zlen tri_v) with 3 in Hk. exists 0. split; [unfold iscell; cbn; lia|]. change (In k [0; 1; 2]). cbn. lia.
  - intros k Hk. rewrite (C0 k Hk). change (2 = 2 /\ turn (P3 0 0 0) (P3 1 0 0) (P3 1 1 0) <> 0%R). split; [reflexivity|]. unfold turn; cbn [px py]. lra.
  - intros F a b x y (Ha & _) (Hb & _) N. exfalso. apply N. rewrite (C0 a Ha), (C0 b Hb). reflexivity.
  - split; [reflexivity|]. intros l H. apply LB in H. lia.
  - intros c F (H & _) _. pose proof (two_labels_2d (map (nthZ 0 [4; 4; 3]) F)) as T. enough (3 <= face_label (priority 2) (map (nthZ 0 [4; 4; 3]) F) <= 4) by lia. apply T.
    + apply (map_nonempty _ _ 2); [exact (proj1 (proj2 (proj2 H))) | lia].
    + intros x Hx. exact (labelled 2 3 [4; 4; 3] tri _ tri_wf eq_refl LB c F x H Hx).
  - lia.
  - intros X; lia.
  - intros _. split; [reflexivity|]. split; [repeat constructor; cbn; lia|]. split.
    + intros h Hh. unfold ishalo in Hh. change (zlen (rk_ext tri_rank)) with 1 in Hh. assert (h = 0) as -> by lia. split; [reflexivity|]. change (NoDup [0; 3; 2]). repeat constructor; cbn; lia.
    + exists 0, [0; 2], 0. split; assumption.
  - split; [reflexivity | repeat constructor; cbn; lia].
  - reflexivity.
  - intros c F h x (Hc & HS & HL & HI) (Hh & HC) Hx Nx. rewrite (C0 c Hc) in *. unfold ishalo in Hh. change (zlen (rk_ext tri_rank)) with 1 in Hh. assert (h = 0) as -> by lia.
    change (cell tri 0) with [0; 1; 2] in *. destruct (list2 F HL) as (p & q & ->). inversion HS as [|? ? _ HF]; subst. inversion HF; subst.
    assert (Hp : p = 0 \/ p = 1 \/ p = 2) by (specialize (HI p ltac:(left; reflexivity)); cbn in HI; lia). assert (Hq : q = 0 \/ q = 1 \/ q = 2) by (specialize (HI q ltac:(right; left; reflexivity)); cbn in HI; lia).
    change (halo_nodes (rk_ext tri_rank) 0) with [0; 3; 2] in HC.
    assert (p = 0 /\ q = 2) as (-> & ->).
    { destruct Hp as [-> | [-> | ->]], Hq as [-> | [-> | ->]]; try lia.
      - specialize (HC 1 ltac:(right; left; reflexivity)). clear - HC. vm_compute in HC. destruct HC as [H | [H | [H | []]]]; discriminate H.
      - specialize (HC 1 ltac:(left; reflexivity)). clear - HC. vm_compute in HC. destruct HC as [H | [H | [H | []]]]; discriminate H. }
    assert (x = 1) as -> by (cbn in Hx, Nx; lia). split.
    + split; [exact F02|]. intros c' (Hc' & _). apply C0. exact Hc'.
    + change (turn (P3 0 0 0) (P3 1 1 0) (P3 1 0 0) * turn (P3 0 0 0) (P3 1 1 0) (P3 (1 / 3) (2 / 3) 0) < 0)%R. unfold turn; cbn [px py]. lra.
  - split; [reflexivity|]. intros k Hk. change (zlen tri_v) with 3 in Hk. assert (Hc : k = 0 \/ k = 1 \/ k = 2) by lia. destruct Hc as [-> | [-> | ->]]; reflexivity.
  - split; [reflexivity|]. split; [cbn; lia|]. intros k e Hk He. change (zlen tri_v) with 3 in Hk. assert (Hc : k = 0 \/ k = 1 \/ k = 2) by lia. destruct Hc as [-> | [-> | ->]]; [destruct He | destruct He|].
    destruct He as [<-|[]]. cbn [g_last g_cell]. split; [cbn; lia|]. split; [cbn; lia|]. exists 0, [0; 2], 0. split; [exact F02|]. split; [right; left; reflexivity | exact K02].
Qed.
Print Assumptions C66_triangle_of_two.
