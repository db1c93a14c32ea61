(** * Proofs_gmsh: labels of nodes and faces from the tags in the mesh file (C95). *)
From Coq Require Import Reals Lra Permutation Sorted.
From Verif Require Import Py PyLemmas Model_part Spec_part Model_label Spec_label Proofs_label Properties_label Model_conn Spec_conn Proofs_conn2 Model_geom Spec_geom Proofs_geom1 Proofs_geom2 Model_interp Spec_interp Model_domain Spec_domain Model_parallel Spec_parallel Model_gmsh Spec_gmsh.
Open Scope Z_scope.

Section Labels.
Context (dim : Z) (M : meshfile).
Hypothesis HD : dim = 2 \/ dim = 3.
Hypothesis SI : sides_in_file dim M.
Notation n := (zlen (mf_points M)).
Notation ls k := (touching (mf_facets M) (mf_tags M) k).

Lemma touching_in k t : In t (ls k) <-> on_side M k t.
Proof.
  unfold touching, on_side. rewrite in_map_iff. split.
  - intros ((f, l) & E & H). cbn [snd] in E. subst l. apply filter_In in H as (H & Hk). cbn [fst] in Hk. apply mem_In in Hk. destruct (In_nth _ _ ([], 0) H) as (i & Hi & EN).
    rewrite combine_length in Hi. pose proof (si_tags _ _ SI) as LT. unfold zlen in LT. rewrite combine_nth in EN by lia. injection EN as E1 E2. exists (Z.of_nat i). unfold nthZ, zlen. rewrite Nat2Z.id, E1. split; [lia|]. split; [exact Hk | exact E2].
  - intros (i & Hi & Hk & Ht). pose proof (si_tags _ _ SI) as LT. unfold zlen in *. exists (nthZ [] (mf_facets M) i, t). split; [reflexivity|]. apply filter_In. split; [|apply mem_In; exact Hk].
    rewrite <- Ht. unfold nthZ. rewrite <- combine_nth by lia. apply nth_In. rewrite combine_length. lia.
Qed.
Lemma side_known k t : on_side M k t -> 1 <= t <= 2 * dim.
Proof. intros (i & Hi & _ & <-). apply (si_known _ _ SI). apply nthZ_In. rewrite (si_tags _ _ SI). exact Hi. Qed.
Lemma dir_cases t : 1 <= t <= 6 -> (t = 1 \/ t = 2) /\ direction t = 1 \/ (t = 3 \/ t = 4) /\ direction t = 2 \/ (t = 5 \/ t = 6) /\ direction t = 3.
Proof. intros H. assert (t = 1 \/ t = 2 \/ t = 3 \/ t = 4 \/ t = 5 \/ t = 6) as C by lia. unfold direction. destruct C as [->|[->|[->|[->|[->| ->]]]]]; cbn; tauto. Qed.
Lemma side_dir k t : on_side M k t -> (t = 1 \/ t = 2) /\ direction t = 1 \/ (t = 3 \/ t = 4) /\ direction t = 2 \/ (t = 5 \/ t = 6) /\ direction t = 3.
Proof. intros H. apply dir_cases. pose proof (side_known _ _ H). lia. Qed.
(** a node gets the tag of its side of lowest direction *)
Lemma node_label k : (precedence (ls k) = 0 /\ forall t, ~ on_side M k t) \/ (on_side M k (precedence (ls k)) /\ forall t, on_side M k t -> direction (precedence (ls k)) <= direction t).
Proof.
  destruct (C09_precedence_meaning (ls k)) as (P1 & P2 & P3 & P4).
  destruct (List.Exists_dec (fun l => l = 1 \/ l = 2) (ls k)) as [X|N1]; [intros l; destruct (Z.eq_dec l 1); [left; auto|]; destruct (Z.eq_dec l 2); [left; auto | right; lia]| |].
  { right. apply Exists_exists in X. destruct (P1 X) as (b & l & a & E & EP & Hl & _). assert (HI : In (precedence (ls k)) (ls k)) by (rewrite EP, E; apply in_or_app; right; left; reflexivity). apply touching_in in HI. split; [exact HI|].
    intros t Ht. assert (D1 : direction (precedence (ls k)) = 1) by (rewrite EP; destruct Hl as [-> | ->]; reflexivity). rewrite D1. destruct (side_dir k t Ht) as [(_ & ->)|[(_ & ->)|(_ & ->)]]; lia. }
  assert (M1 : forall l, In l (ls k) -> l <> 1 /\ l <> 2). { intros l Hl. split; intros ->; apply N1, Exists_exists; eauto. }
  destruct (List.Exists_dec (fun l => l = 3 \/ l = 4) (ls k)) as [X|N2]; [intros l; destruct (Z.eq_dec l 3); [left; auto|]; destruct (Z.eq_dec l 4); [left; auto | right; lia]| |].
  { right. apply Exists_exists in X. destruct (P2 M1 X) as (b & l & a & E & EP & Hl & _). assert (HI : In (precedence (ls k)) (ls k)) by (rewrite EP, E; apply in_or_app; right; left; reflexivity). apply touching_in in HI. split; [exact HI|].
    intros t Ht. assert (D1 : direction (precedence (ls k)) = 2) by (rewrite EP; destruct Hl as [-> | ->]; reflexivity). rewrite D1. pose proof (M1 t (proj2 (touching_in k t) Ht)). destruct (side_dir k t Ht) as [(? & ->)|[(_ & ->)|(_ & ->)]]; lia. }
  assert (M2 : forall l, In l (ls k) -> l <> 3 /\ l <> 4). { intros l Hl. split; intros ->; apply N2, Exists_exists; eauto. }
  assert (M3 : forall l, In l (ls k) -> l = 5 \/ l = 6). { intros l Hl. pose proof (M1 l Hl). pose proof (M2 l Hl). apply touching_in in Hl. destruct (side_dir k l Hl) as [(? & _)|[(? & _)|(? & _)]]; lia. }
  destruct (ls k) as [|x r] eqn:E.
  - left. split; [exact P4|]. intros t Ht. apply touching_in in Ht. rewrite E in Ht. destruct Ht.
  - right. assert (EP : precedence (x :: r) = x). { apply P3. intros l Hl. pose proof (M1 l Hl). pose proof (M2 l Hl). pose proof (M3 l Hl). lia. }
    rewrite EP. assert (HI : on_side M k x) by (apply touching_in; rewrite E; left; reflexivity). split; [exact HI|]. intros t Ht. assert (D3 : forall y, y = 5 \/ y = 6 -> direction y = 3) by (intros y [-> | ->]; reflexivity). rewrite (D3 x (M3 x (or_introl eq_refl))). apply touching_in in Ht. rewrite E in Ht. rewrite (D3 t (M3 t Ht)). lia.
Qed.
Lemma pl_label px py pz t : 1 <= t <= 6 -> periodic_label px py pz t = label_of_side px py pz t.
Proof. intros H. assert (t = 1 \/ t = 2 \/ t = 3 \/ t = 4 \/ t = 5 \/ t = 6) as C by lia. unfold label_of_side, direction. destruct C as [->|[->|[->|[->|[->| ->]]]]]; destruct px, py, pz; reflexivity. Qed.
Lemma labels_file px py pz : exists labels, labels_of_file CellsDict dim px py pz M = Ok labels /\ zlen labels = n /\
  forall k, 0 <= k < n -> (nthZ 0 labels k = 0 /\ forall t, ~ on_side M k t) \/
    exists t, nthZ 0 labels k = label_of_side px py pz t /\ on_side M k t /\ forall t', on_side M k t' -> direction t <= direction t'.
Proof.
  destruct (C09_node_label_precedence dim n (mf_facets M) (mf_tags M) (si_facets _ _ SI) (si_tags _ _ SI) px py pz ltac:(apply zlen_nonneg)) as (labels & E & L & V). exists labels. split; [exact E|]. split; [exact L|].
  intros k Hk. rewrite (V k Hk). destruct (node_label k) as [(E0 & NO)|(ON & MI)]; [left; rewrite E0; split; [reflexivity | exact NO]|]. right. exists (precedence (ls k)). split; [|auto]. apply pl_label. pose proof (side_known _ _ ON). lia.
Qed.

(** the label of a facet whose nodes have these labels *)
Lemma face_label_in prio l : l <> [] -> ~ In 0 l -> In (face_label prio l) l \/ face_label prio l = 100.
Proof.
  intros NE N0. unfold face_label. destruct l as [|v t]; [congruence|]. destruct (forallb (Z.eqb v) t); [left; left; reflexivity|]. destruct (mem 0 (v :: t)) eqn:E0; [apply mem_In in E0; contradiction|].
  destruct (find (fun p => mem p (v :: t)) prio) as [p|] eqn:EF; [|right; reflexivity]. apply find_some in EF as (_ & EF). left. apply mem_In. exact EF.
Qed.
Definition below (px py pz : bool) (t : Z) : list Z := map (label_of_side px py pz) (filter (fun t' => (direction t' <? direction t) || (t' =? t)) [1; 2; 3; 4; 5; 6]).
Lemma face_label_top px py pz t l : 1 <= t <= 2 * dim -> (dim = 3 -> pz = true -> py = true) -> (forall x, In x l -> In x (below px py pz t)) -> In (label_of_side px py pz t) l -> (direction t = 1 -> forall x, In x l -> x = label_of_side px py pz t) ->
  face_label (priority dim) l = label_of_side px py pz t.
Proof.
  intros HT PZ A HI H1. unfold face_label. destruct l as [|v r]; [destruct HI|].
  destruct (forallb (Z.eqb v) r) eqn:EA.
  { destruct HI as [HI|HI]; [exact HI|]. rewrite forallb_forall in EA. apply EA in HI. lia. }
  destruct (Z.eq_dec (direction t) 1) as [D1|D1].
  { exfalso. assert (EA' : forallb (Z.eqb v) r = true); [|congruence]. apply forallb_forall. intros x Hx. rewrite (H1 D1 v (or_introl eq_refl)), (H1 D1 x (or_intror Hx)). apply Z.eqb_refl. }
  assert (NI : forall x, ~ In x (below px py pz t) -> mem x (v :: r) = false). { intros x Hx. destruct (mem x (v :: r)) eqn:E; [|reflexivity]. apply mem_In in E. exfalso. apply Hx, A, E. }
  assert (C : t = 1 \/ t = 2 \/ t = 3 \/ t = 4 \/ t = 5 \/ t = 6) by (destruct HD; lia). apply mem_In in HI. clear EA A H1. revert NI HI. generalize (v :: r). intros q NI HI.
  destruct HD as [-> | ->]; unfold priority; cbn [Z.eqb Pos.eqb];
    (destruct C as [->|[->|[->|[->|[->| ->]]]]]; try (exfalso; apply D1; reflexivity); try (exfalso; lia));
    (destruct px, py, pz; try (exfalso; pose proof (PZ eq_refl eq_refl); discriminate); cbn -[mem] in HI |- *;
     repeat first [ rewrite (NI 0) by (vm_compute; intuition lia) | rewrite (NI 3) by (vm_compute; intuition lia) | rewrite (NI 4) by (vm_compute; intuition lia) | rewrite (NI 5) by (vm_compute; intuition lia)
                  | rewrite (NI 6) by (vm_compute; intuition lia) | rewrite (NI 33) by (vm_compute; intuition lia) | rewrite (NI 44) by (vm_compute; intuition lia) | rewrite (NI 55) by (vm_compute; intuition lia) | rewrite (NI 66) by (vm_compute; intuition lia)];
     try rewrite HI; reflexivity).
Qed.

Lemma tagged_on F t k : tagged M F t -> In k F -> on_side M k t.
Proof. intros (i & Hi & P & Ht) Hk. exists i. split; [exact Hi|]. split; [apply (Permutation_in k (Permutation_sym P)); exact Hk | exact Ht]. Qed.
Lemma tagged_in F t : tagged M F t -> zlen F = dim /\ 1 <= t <= 2 * dim /\ forall k, In k F -> 0 <= k < n.
Proof.
  intros (i & Hi & P & Ht). destruct (si_facets _ _ SI (nthZ [] (mf_facets M) i)) as (L & R); [apply nthZ_In; exact Hi|]. split; [|split].
  - unfold zlen in *. rewrite <- (Permutation_length P). exact L.
  - rewrite <- Ht. apply (si_known _ _ SI), nthZ_In. rewrite (si_tags _ _ SI). exact Hi.
  - intros k Hk. apply R. apply (Permutation_in k (Permutation_sym P)). exact Hk.
Qed.
Lemma label_inj px py pz t t' : 1 <= t <= 6 -> 1 <= t' <= 6 -> label_of_side px py pz t = label_of_side px py pz t' -> t = t'.
Proof. intros H H'. rewrite <- !pl_label by assumption. assert (t = 1 \/ t = 2 \/ t = 3 \/ t = 4 \/ t = 5 \/ t = 6) as C by lia. assert (t' = 1 \/ t' = 2 \/ t' = 3 \/ t' = 4 \/ t' = 5 \/ t' = 6) as C' by lia.
  destruct C as [->|[->|[->|[->|[->| ->]]]]]; destruct C' as [->|[->|[->|[->|[->| ->]]]]]; destruct px, py, pz; cbn; intros X; try reflexivity; discriminate X. Qed.
Lemma label_range px py pz t : 1 <= t <= 6 -> 1 <= label_of_side px py pz t < 100.
Proof. intros H. unfold label_of_side. match goal with |- context [if ?b then 11 * t else t] => destruct b end; lia. Qed.
Lemma face_label_file px py pz labels F t : (forall k, 0 <= k < n -> (nthZ 0 labels k = 0 /\ forall t, ~ on_side M k t) \/ exists t, nthZ 0 labels k = label_of_side px py pz t /\ on_side M k t /\ forall t', on_side M k t' -> direction t <= direction t') ->
  tagged M F t -> (has_own_node M F t -> (dim = 3 -> pz = true -> py = true) -> face_label (priority dim) (map (nthZ 0 labels) F) = label_of_side px py pz t) /\
    (face_label (priority dim) (map (nthZ 0 labels) F) = label_of_side px py pz t -> has_own_node M F t).
Proof.
  intros V TG. destruct (tagged_in F t TG) as (LF & HT & HF).
  assert (V' : forall k, In k F -> exists s, nthZ 0 labels k = label_of_side px py pz s /\ on_side M k s /\ (forall t', on_side M k t' -> direction s <= direction t') /\ (direction s < direction t \/ s = t)).
  { intros k Hk. pose proof (tagged_on F t k TG Hk) as OK. destruct (V k (HF k Hk)) as [(_ & N)|(s & E & ON & MI)]; [exfalso; exact (N t OK)|]. exists s. split; [exact E|]. split; [exact ON|]. split; [exact MI|]. pose proof (MI t OK). destruct (Z.eq_dec (direction s) (direction t)) as [ED|]; [right; exact (si_opposite _ _ SI k s t ON OK ED) | left; lia]. }
  split.
  - intros (k & Hk & OWN) PZ. apply face_label_top; [exact HT | exact PZ | | |].
    + intros x Hx. apply in_map_iff in Hx as (j & <- & Hj). destruct (V' j Hj) as (s & E & ON & _ & C). rewrite E. unfold below. apply in_map, filter_In. pose proof (side_known _ _ ON) as SK. split; [cbn; destruct HD; lia|]. apply orb_true_iff. destruct C as [C|C]; [left; apply Z.ltb_lt; exact C | right; apply Z.eqb_eq; exact C].
    + apply in_map_iff. exists k. split; [|exact Hk]. destruct (V' k Hk) as (s & E & ON & _ & [C| ->]); [pose proof (OWN s ON); lia | exact E].
    + intros D1 x Hx. apply in_map_iff in Hx as (j & <- & Hj). destruct (V' j Hj) as (s & E & ON & _ & [C| ->]); [|exact E]. exfalso. pose proof (side_known _ _ ON) as SK. pose proof (dir_cases s ltac:(destruct HD; lia)). lia.
  - intros EL. assert (R6 : 1 <= t <= 6) by (destruct HD; lia). destruct (face_label_in (priority dim) (map (nthZ 0 labels) F)) as [HI|H100].
    + destruct F; [destruct HD as [E|E]; rewrite E in LF; discriminate LF | cbn; discriminate].
    + intros H0. apply in_map_iff in H0 as (j & E0 & Hj). destruct (V' j Hj) as (s & E & ON & _ & _). pose proof (side_known _ _ ON) as SK. pose proof (label_range px py pz s ltac:(destruct HD; lia)). lia.
    + rewrite EL in HI. apply in_map_iff in HI as (j & EJ & Hj). exists j. split; [exact Hj|]. destruct (V' j Hj) as (s & E & ON & MI & _). pose proof (side_known _ _ ON) as SK. rewrite E in EJ. apply label_inj in EJ; [|destruct HD; lia | exact R6]. subst s. exact MI.
    + exfalso. pose proof (label_range px py pz t R6). lia.
Qed.
(** with front and back periodic but upper and bottom not, a front facet touching them is taken for a part of them *)
Lemma face_label_front px labels F t k : (forall k, 0 <= k < n -> (nthZ 0 labels k = 0 /\ forall t, ~ on_side M k t) \/ exists t, nthZ 0 labels k = label_of_side px false true t /\ on_side M k t /\ forall t', on_side M k t' -> direction t <= direction t') ->
  dim = 3 -> tagged M F t -> direction t = 3 -> has_own_node M F t -> In k F -> (forall s, on_side M k s -> direction s <> 1) -> (exists s, on_side M k s /\ direction s = 2) ->
  face_label (priority dim) (map (nthZ 0 labels) F) = 3 \/ face_label (priority dim) (map (nthZ 0 labels) F) = 4.
Proof.
  intros V D3 TG DT (k0 & Hk0 & OWN) Hk N1 (s2 & ON2 & DS2). destruct (tagged_in F t TG) as (LF & HT & HF). rewrite D3 in HT |- *.
  assert (V' : forall k, In k F -> exists s, nthZ 0 labels k = label_of_side px false true s /\ on_side M k s /\ forall t', on_side M k t' -> direction s <= direction t').
  { intros j Hj. destruct (V j (HF j Hj)) as [(_ & N)|X]; [exfalso; exact (N t (tagged_on F t j TG Hj)) | exact X]. }
  assert (VAL : forall x, In x (map (nthZ 0 labels) F) -> x = 3 \/ x = 4 \/ (x <> 0 /\ x <> 5 /\ x <> 6)).
  { intros x Hx. apply in_map_iff in Hx as (j & <- & Hj). destruct (V' j Hj) as (s & E & ON & _). rewrite E. pose proof (side_known _ _ ON) as SK. rewrite D3 in SK. assert (C : s = 1 \/ s = 2 \/ s = 3 \/ s = 4 \/ s = 5 \/ s = 6) by lia. destruct C as [->|[->|[->|[->|[->| ->]]]]]; destruct px; cbn; lia. }
  assert (H34 : mem 3 (map (nthZ 0 labels) F) = true \/ mem 4 (map (nthZ 0 labels) F) = true).
  { destruct (V' k Hk) as (s & E & ON & MI). pose proof (MI _ ON2) as LE. pose proof (N1 s ON) as NE. destruct (side_dir k s ON) as [(_ & DD)|[(C & _)|(_ & DD)]]; [lia | | lia].
    destruct C as [-> | ->]; [left | right]; apply mem_In, in_map_iff; exists k; (split; [exact E | exact Hk]). }
  assert (H55 : exists x, In x (map (nthZ 0 labels) F) /\ 50 < x).
  { destruct (V' k0 Hk0) as (s & E & ON & MI). exists (nthZ 0 labels k0). split; [apply in_map; exact Hk0|]. rewrite E. pose proof (OWN s ON). destruct (side_dir k0 s ON) as [(_ & DD)|[(_ & DD)|(C & _)]]; [lia | lia|]. destruct C as [-> | ->]; cbn; lia. }
  assert (N : forall v, v = 0 \/ v = 5 \/ v = 6 -> mem v (map (nthZ 0 labels) F) = false). { intros v Hv. destruct (mem v _) eqn:E; [|reflexivity]. apply mem_In, VAL in E. lia. }
  unfold face_label. remember (map (nthZ 0 labels) F) as q eqn:EQ. clear EQ. destruct q as [|v r] eqn:EQ; [destruct H55 as (x & [] & _)|].
  destruct (forallb (Z.eqb v) r) eqn:EA.
  { exfalso. rewrite forallb_forall in EA. assert (ALL : forall x, In x (v :: r) -> x = v) by (intros x [X|X]; [congruence | apply EA in X; lia]). destruct H55 as (x & Hx & GX). apply ALL in Hx. destruct H34 as [H|H]; apply mem_In, ALL in H; lia. }
  rewrite <- EQ in *. rewrite (N 0) by lia. change (priority 3) with [5; 6; 3; 4; 55; 66; 33; 44]. cbn -[mem]. rewrite (N 5), (N 6) by lia. destruct (mem 3 q) eqn:E3; [left; reflexivity|]. destruct H34 as [H|H]; [congruence|]. rewrite H. right. reflexivity.
Qed.
End Labels.

(** ** Sorting the rows of the cells changes nothing *)
Section Sorted.
Context (dim : Z) (cells : list (list Z)) (nodes : list pt).
Notation sorted := (map np_sort cells).
Lemma sorted_cell c : iscell cells c -> cell sorted c = np_sort (cell cells c).
Proof. intros H. unfold cell. rewrite (nthZ_map _ []) by exact H. reflexivity. Qed.
Lemma sorted_iscell c : iscell sorted c <-> iscell cells c.
Proof. unfold iscell. rewrite zlen_map. tauto. Qed.
Lemma sorted_In c k : iscell cells c -> In k (cell sorted c) <-> In k (cell cells c).
Proof. intros H. rewrite sorted_cell by exact H. split; apply Permutation_in; [apply np_sort_perm | apply Permutation_sym, np_sort_perm]. Qed.
Lemma sorted_facet c F : has_facet dim sorted c F <-> has_facet dim cells c F.
Proof.
  unfold has_facet, facet_of. rewrite sorted_iscell. split; intros (Hc & S & L & I); (split; [exact Hc|]; split; [exact S|]; split; [exact L|]; intros k Hk; apply I in Hk; apply (sorted_In c k Hc); exact Hk).
Qed.
Lemma sorted_only c F : only_cell dim sorted c F <-> only_cell dim cells c F.
Proof. unfold only_cell. rewrite sorted_facet. split; intros (A & B); (split; [exact A|]); intros c' H; apply B, sorted_facet; exact H. Qed.
Lemma nonflat_perm r r' : Permutation r r' -> nonflat dim nodes r -> nonflat dim nodes r'.
Proof.
  intros P. unfold nonflat. apply (Permutation_map (at_node nodes)) in P. pose proof (Permutation_length P) as LP. destruct (map (at_node nodes) r) as [|a [|b [|c [|d [|e l]]]]]; try tauto.
  - destruct (map (at_node nodes) r') as [|a' [|b' [|c' [|d' l']]]]; try discriminate LP. intros (D & NZ). split; [exact D|].
    assert (AB : forall u v w u' v' w', Permutation [u; v; w] [u'; v'; w'] -> Rabs (turn u v w) = Rabs (turn u' v' w')).
    { intros u v w u' v' w' Q. pose (G := fun u v w (_ : pt) => Rabs (turn u v w)). pose (F := fun l : list pt => match l with [a; b; c] => Some (Rabs (turn a b c)) | _ => None end).
      assert (H1 : forall a b c, Rabs (turn b a c) = Rabs (turn a b c)) by (intros; rewrite <- (Rabs_Ropp (turn a0 b0 c0)); f_equal; unfold turn; ring).
      assert (H2 : forall a b c, Rabs (turn a c b) = Rabs (turn a b c)) by (intros; rewrite <- (Rabs_Ropp (turn a0 b0 c0)); f_equal; unfold turn; ring).
      assert (GG : forall l l', Permutation l l' -> F l = F l').
      { intros l l' PP. apply Permutation_Permutation_transp in PP. induction PP as [l | x y l1 l2 | l l' l'' _ IH1 _ IH2]; [reflexivity | | congruence].
        destruct l1 as [|p [|q [|s l1]]]; cbn [app F]; try (destruct l2 as [|u0 [|v0 l2]]; cbn [F]; try reflexivity; f_equal; auto; fail). destruct l1; reflexivity. }
      specialize (GG _ _ Q). cbn [F] in GG. congruence. }
    intros Z0. apply NZ. pose proof (AB _ _ _ _ _ _ P) as E. rewrite Z0, Rabs_R0 in E. destruct (Req_dec (turn a b c) 0) as [|NE]; [assumption|]. apply Rabs_no_R0 in NE. congruence.
  - destruct (map (at_node nodes) r') as [|a' [|b' [|c' [|d' [|e' l']]]]]; try discriminate LP. intros (D & NZ). split; [exact D|]. intros Z0. apply NZ.
    assert (E : Rabs (det4 a b c d) = Rabs (det4 a' b' c' d')).
    { apply (list4_perm_ind (fun a b c d => Rabs (det4 a b c d))); [| | | exact P]; intros w x y z; rewrite <- (Rabs_Ropp (det4 w x y z)); f_equal; unfold det4, det, vsub; cbn [px py pz]; ring. }
    rewrite Z0, Rabs_R0 in E. destruct (Req_dec (det4 a b c d) 0) as [|NE]; [assumption|]. apply Rabs_no_R0 in NE. congruence.
Qed.
Lemma sorted_mesh : wf_mesh dim (zlen nodes) cells -> wf_mesh dim (zlen nodes) sorted.
Proof.
  intros [D R]. split; [exact D|]. intros r Hr. apply in_map_iff in Hr as (r0 & <- & Hr0). destruct (R r0 Hr0) as (L & ND & B). split; [rewrite zlen_np_sort; exact L|]. split; [apply (Permutation_NoDup (Permutation_sym (np_sort_perm _))); exact ND|].
  intros k Hk. apply B. apply (Permutation_in k (np_sort_perm _)). exact Hk.
Qed.
Lemma sorted_proper : proper dim nodes cells -> proper dim nodes sorted.
Proof.
  intros PR F a b x y HA HB NE XA XF YB YF. apply sorted_facet in HA, HB. apply (PR F a b x y HA HB NE); [apply (sorted_In a x (proj1 HA)); exact XA | exact XF | apply (sorted_In b y (proj1 HB)); exact YB | exact YF].
Qed.
Lemma sorted_split SIZE npart0 epart : valid_split dim SIZE cells nodes npart0 epart -> valid_split dim SIZE sorted nodes npart0 epart.
Proof.
  intros [A (B1 & B2) C E]. split; [exact A | split; [rewrite zlen_map; exact B1 | intros c Hc; apply B2, sorted_iscell; exact Hc] | |].
  - intros H1. destruct (C H1) as (N & K). split; [rewrite zlen_map; exact N|]. intros k Hk. destruct (K k Hk) as (c & Hc & HI). exists c. split; [apply sorted_iscell; exact Hc | apply (sorted_In c k Hc); exact HI].
  - intros H1. destruct (E H1) as (N & MC & SH). split; [exact N|]. split.
    + intros c k Hc Hk. assert (Hc' : iscell cells c) by (apply sorted_iscell; exact Hc). destruct (MC c k) as (c' & Hc2 & HI & EO); [exact Hc' | apply (sorted_In c k Hc'); exact Hk|]. exists c'. split; [apply sorted_iscell; exact Hc2|]. split; [apply (sorted_In c' k Hc2); exact HI | exact EO].
    + intros r Hr. destruct (SH r Hr) as (a & b & F & HA & HB & OA & OB). exists a, b, F. split; [apply sorted_facet; exact HA|]. split; [apply sorted_facet; exact HB|]. auto.
Qed.
End Sorted.
