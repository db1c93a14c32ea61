(** * Proofs_geom2: C15, C17, C18, C19, C23 *)
From Verif Require Import Py PyLemmas Scatter Model_part Model_label Model_conn Spec_conn Proofs_conn1 Proofs_conn2 Proofs_conn3 Model_geom Spec_geom Proofs_geom1.
From Coq Require Import Permutation Sorting.Sorted ZifyBool Lra Psatz.
Open Scope Z_scope.

(** ** labels *)
Lemma two_is_mem v a b : v <> 0 -> ((a =? v) && negb (b =? 0)) || (negb (a =? 0) && (b =? v)) = mem v [a; b] && negb (mem 0 [a; b]).
Proof.
  intros Hv. unfold mem. cbn [existsb].
  repeat match goal with |- context [?x =? ?y] => destruct (Z.eqb_spec x y); cbn [orb andb negb]; try lia end; reflexivity.
Qed.
Lemma name2_spec a b : name2 a b = face_label (priority 2) [a; b].
Proof.
  unfold name2. rewrite !two_is_mem by lia. unfold face_label. change (priority 2) with [3; 4; 33; 44]. cbn [forallb find].
  rewrite andb_true_r. destruct (a =? b); [reflexivity|].
  destruct (mem 0 [a; b]); [rewrite !andb_false_r; reflexivity|]. rewrite !andb_true_r.
  repeat match goal with |- context [mem ?v ?l] => destruct (mem v l); [reflexivity|] end. reflexivity.
Qed.
Lemma one_is_mem v a b c : v <> 0 -> one_is v a b c = mem v [a; b; c] && negb (mem 0 [a; b; c]).
Proof.
  intros Hv. unfold one_is, mem. cbn [existsb].
  repeat match goal with |- context [?x =? ?y] => destruct (Z.eqb_spec x y); cbn [orb andb negb]; try lia end; reflexivity.
Qed.
Lemma name3_spec a b c : name3 a b c = face_label (priority 3) [a; b; c].
Proof.
  unfold name3. rewrite !one_is_mem by lia. unfold face_label. change (priority 3) with [5; 6; 3; 4; 55; 66; 33; 44]. cbn [forallb find].
  rewrite andb_true_r. destruct ((a =? b) && (a =? c)); [reflexivity|].
  destruct (mem 0 [a; b; c]); [rewrite !andb_false_r; reflexivity|]. rewrite !andb_true_r.
  repeat match goal with |- context [mem ?v ?l] => destruct (mem v l); [reflexivity|] end. reflexivity.
Qed.

Lemma mem_perm x l l' : Permutation l l' -> mem x l = mem x l'.
Proof. intros P. destruct (mem_spec x l), (mem_spec x l'); try reflexivity; exfalso; [apply n | apply n]; (eapply Permutation_in; [|eassumption]); [exact P | symmetry; exact P]. Qed.
Lemma face_label_perm prio l l' : Permutation l l' -> face_label prio l = face_label prio l'.
Proof.
  intros P. unfold face_label. destruct l as [|v t], l' as [|w u]; [reflexivity | apply Permutation_nil in P; discriminate | symmetry in P; apply Permutation_nil in P; discriminate|].
  assert (A : forallb (Z.eqb v) t = true <-> forall x, In x (v :: t) -> x = v).
  { rewrite forallb_forall. split; [intros H x [<-|Hx]; [reflexivity|]; specialize (H x Hx); lia | intros H x Hx; specialize (H x (or_intror Hx)); lia]. }
  assert (B : forallb (Z.eqb w) u = true <-> forall x, In x (w :: u) -> x = w).
  { rewrite forallb_forall. split; [intros H x [<-|Hx]; [reflexivity|]; specialize (H x Hx); lia | intros H x Hx; specialize (H x (or_intror Hx)); lia]. }
  assert (I : forall x, In x (v :: t) <-> In x (w :: u)) by (intros x; split; apply Permutation_in; [exact P | symmetry; exact P]).
  destruct (forallb (Z.eqb v) t) eqn:E1, (forallb (Z.eqb w) u) eqn:E2.
  - symmetry. apply (proj1 A eq_refl). apply I. left; reflexivity.
  - exfalso. assert (false = true); [|discriminate]. apply B. intros x Hx. apply I in Hx. rewrite (proj1 A eq_refl x Hx). symmetry. apply (proj1 A eq_refl). apply I. left; reflexivity.
  - exfalso. assert (false = true); [|discriminate]. apply A. intros x Hx. apply I in Hx. rewrite (proj1 B eq_refl x Hx). symmetry. apply (proj1 B eq_refl). apply I. left; reflexivity.
  - rewrite (mem_perm 0 _ _ P). destruct (mem 0 (w :: u)); [reflexivity|].
    replace (find (fun p => mem p (v :: t)) prio) with (find (fun p => mem p (w :: u)) prio); [reflexivity|].
    induction prio as [|p prio IH]; [reflexivity|]. cbn [find]. rewrite (mem_perm p _ _ P), IH. reflexivity.
Qed.

(** ** small vector facts *)
Lemma pt_eq a b : px a = px b -> py a = py b -> pz a = pz b -> a = b.
Proof. destruct a, b; cbn; congruence. Qed.
Ltac pteq := apply pt_eq; cbn [px py pz pscal padd psub pcross vsub vadd vscal p0 vzero].

Lemma orient_away_cases n d : orient_away n d = n /\ (d <= 0)%R \/ orient_away n d = pscal (-1) n /\ (0 < d)%R.
Proof. unfold orient_away. destruct (Rlt_dec 0 d); [right; split; [reflexivity|assumption] | left; split; [reflexivity | lra]]. Qed.

Section G.
Context (dim : Z) (vertex : list pt) (namen : list Z) (nodeid : list (list Z)).
Hypothesis WF : wf_mesh dim (zlen vertex) nodeid.
Hypothesis HN : zlen namen = zlen vertex.

(** C15 *)
Lemma c15 : exists g, build_geometry dim nodeid vertex namen = Ok g /\ zlen (ge_faces g) = zlen (cn_faces (ge_conn g)) /\
  forall f, 0 <= f < zlen (cn_faces (ge_conn g)) ->
    let F := nthZ [] (cn_faces (ge_conn g)) f in let name := fg_name (nthZ fg0 (ge_faces g) f) in
    ((exists a b, a <> b /\ has_facet dim nodeid a F /\ has_facet dim nodeid b F) -> name = 0) /\
    ((forall a b, has_facet dim nodeid a F -> has_facet dim nodeid b F -> a = b) ->
       forall G, Permutation G F -> name = face_label (priority dim) (map (nthZ 0 namen) G)).
Proof.
  destruct (build_geometry_ok dim vertex namen nodeid WF HN) as (cn & g & E & Hcn & <- & _ & Ef & _). exists g. split; [exact E|]. rewrite Ef.
  split; [rewrite zlen_map, zlen_range; [reflexivity | apply zlen_nonneg]|]. intros f Hf. cbv zeta.
  rewrite (nthZ_map _ 0) by (rewrite zlen_range; lia). rewrite nthZ_range by lia. set (cn := ge_conn g) in *.
  destruct (c12 dim (zlen vertex) (ocells dim vertex nodeid) (WFo dim vertex nodeid WF)) as (cn' & E' & HL & H12). rewrite Hcn in E'. injection E' as <-.
  destruct (H12 f Hf) as (a & b & Eab & Ha & _ & Hb & Hb' & _). unfold facegeo_of. cbn [fg_name]. unfold cright. rewrite Eab. change (nthZ 0 [a; b] 1) with b.
  set (F := nthZ [] (cn_faces cn) f) in *.
  split.
  - intros (c1 & c2 & Hne & H1 & H2). apply (has_facet_o dim vertex nodeid WF) in H1, H2. destruct (Z.eqb_spec b (-1)) as [->|]; [|reflexivity].
    exfalso. apply Hne. rewrite (proj1 Hb eq_refl _ H1), (proj1 Hb eq_refl _ H2). reflexivity.
  - intros Hu G HG. assert (b = -1) as ->. { apply Hb. intros k Hk. apply Hu; apply (has_facet_o dim vertex nodeid WF); assumption. }
    cbn [Z.eqb Pos.eqb]. destruct (face_row dim vertex nodeid WF cn Hcn f Hf) as (HLF & _ & _). fold F in HLF. unfold label.
    rewrite (face_label_perm (priority dim) (map (nthZ 0 namen) G) (map (nthZ 0 namen) F)) by (apply Permutation_map; exact HG).
    destruct (wm_dim _ _ _ WF) as [Ed|Ed]; rewrite Ed in *.
    + destruct (list2 F HLF) as (x & y & ->). cbn [map]. apply name2_spec.
    + destruct (list3 F HLF) as (x & y & z & ->). cbn [map]. apply name3_spec.
Qed.
End G.

(** ** C17 *)
Definition vol2 (a b c : pt) := (1/2 * Rabs ((px a - px b) * (py a - py c) - (px a - px c) * (py a - py b)))%R.
Lemma vol2_turn a b c : vol2 a b c = (Rabs (turn a b c) / 2)%R.
Proof.
  unfold vol2, turn. rewrite Rmult_comm. unfold Rdiv at 2. replace (1 / 2)%R with (/ 2)%R by lra. f_equal. f_equal. ring.
Qed.
Lemma turn_swap a b c : turn a c b = (- turn a b c)%R. Proof. unfold turn; ring. Qed.

Lemma c17 vertex namen nodeid : wf_mesh 2 (zlen vertex) nodeid -> zlen namen = zlen vertex ->
  exists g, build_geometry 2 nodeid vertex namen = Ok g /\ zlen (ge_cells g) = zlen nodeid /\
  (forall i, iscell nodeid i -> forall s1 s2 s3, cell nodeid i = [s1; s2; s3] ->
     let a := at_node vertex s1 in let b := at_node vertex s2 in let c := at_node vertex s3 in
     exists cg t2 t3, nthZ (cg0 []) (ge_cells g) i = cg /\
       cg_volume cg = (Rabs (turn a b c) / 2)%R /\
       (nonflat 2 vertex (cell nodeid i) -> (0 < cg_volume cg)%R) /\
       (planar vertex -> cg_center cg = barycentre [a; b; c]) /\
       cg_nodes cg = [s1; t2; t3] /\ Permutation [t2; t3] [s2; s3] /\
       (turn a (at_node vertex t2) (at_node vertex t3) = 2 * cg_volume cg)%R) /\
  compute_cells 2 (map cg_nodes (ge_cells g)) vertex = Ok (ge_cells g).
Proof.
  intros WF HN. destruct (build_geometry_ok 2 vertex namen nodeid WF HN) as (cn & g & E & Hcn & _ & Ec & _). exists g. split; [exact E|]. rewrite Ec.
  split; [apply zlen_map|]. split.
  - intros i Hi s1 s2 s3 Er. cbv zeta. rewrite (nthZ_map _ []) by exact Hi. fold (cell nodeid i). rewrite Er.
    change (cellgeo_of 2 vertex) with (cellgeo2 vertex). unfold cellgeo2. change (nthZ 0 [s1; s2; s3] 0) with s1. change (nthZ 0 [s1; s2; s3] 1) with s2. change (nthZ 0 [s1; s2; s3] 2) with s3. cbv zeta.
    set (a := at_node vertex s1). set (b := at_node vertex s2). set (c := at_node vertex s3). fold (vol2 a b c).
    pose proof (vol2_turn a b c) as HV.
    assert (Hin : In (cell nodeid i) nodeid) by (apply nthZ_In; exact Hi).
    assert (Hz : planar vertex -> pz a = 0%R /\ pz b = 0%R /\ pz c = 0%R).
    { intros Hp. destruct (wm_rows _ _ _ WF _ Hin) as (_ & _ & Hr). rewrite Er in Hr. repeat split; apply Hp; apply nthZ_In; apply Hr; cbn; auto. }
    assert (Hbar : planar vertex -> P3 (1 / 3 * (px a + px b + px c)) (1 / 3 * (py a + py b + py c)) 0 = barycentre [a; b; c]).
    { intros Hp. destruct (Hz Hp) as (Z1 & Z2 & Z3). unfold barycentre. change (zlen [a; b; c]) with 3. unfold vsum; cbn [fold_right]. pteq; rewrite ?Z1, ?Z2, ?Z3; lra. }
    assert (Hpos : nonflat 2 vertex [s1; s2; s3] -> (0 < vol2 a b c)%R).
    { unfold nonflat. cbn [map]. fold a b c. intros (_ & Hne). rewrite HV. pose proof (Rabs_pos_lt _ Hne). lra. }
    destruct (Rlt_dec (turn a b c) 0) as [Hlt|Hge].
    + eexists _, s3, s2. split; [reflexivity|]. cbn [cg_volume cg_center cg_nodes]. split; [exact HV|]. split; [exact Hpos|]. split; [exact Hbar|]. split; [reflexivity|].
      split; [apply perm_swap|]. fold b c. rewrite turn_swap, HV, Rabs_left by exact Hlt. lra.
    + eexists _, s2, s3. split; [reflexivity|]. cbn [cg_volume cg_center cg_nodes]. split; [exact HV|]. split; [exact Hpos|]. split; [exact Hbar|]. split; [reflexivity|].
      split; [reflexivity|]. fold b c. rewrite HV, Rabs_right by lra. lra.
  - rewrite map_map. change (map (fun x => cg_nodes (cellgeo_of 2 vertex x)) nodeid) with (ocells 2 vertex nodeid). rewrite (compute_cells_ok 2 vertex _ (WFo 2 vertex nodeid WF)).
    f_equal. unfold ocells. rewrite map_map. apply map_ext_in. intros r Hr. destruct (wm_rows _ _ _ WF r Hr) as (HL & _ & _). destruct (list3 r HL) as (s1 & s2 & s3 & ->).
    change (cellgeo_of 2 vertex) with (cellgeo2 vertex). unfold cellgeo2 at 2 3. change (nthZ 0 [s1; s2; s3] 0) with s1. change (nthZ 0 [s1; s2; s3] 1) with s2. change (nthZ 0 [s1; s2; s3] 2) with s3. cbv zeta. cbn [cg_nodes].
    set (a := at_node vertex s1). set (b := at_node vertex s2). set (c := at_node vertex s3).
    destruct (Rlt_dec (turn a b c) 0) as [Hlt|Hge].
    + unfold cellgeo2. change (nthZ 0 [s1; s3; s2] 0) with s1. change (nthZ 0 [s1; s3; s2] 1) with s3. change (nthZ 0 [s1; s3; s2] 2) with s2. cbv zeta. fold a b c.
      destruct (Rlt_dec (turn a c b) 0) as [H2|_]; [rewrite turn_swap in H2; lra|]. f_equal; [f_equal; lra|]. fold (vol2 a c b) (vol2 a b c). rewrite !vol2_turn, turn_swap, Rabs_Ropp. reflexivity.
    + unfold cellgeo2. change (nthZ 0 [s1; s2; s3] 0) with s1. change (nthZ 0 [s1; s2; s3] 1) with s2. change (nthZ 0 [s1; s2; s3] 2) with s3. cbv zeta. fold a b c.
      destruct (Rlt_dec (turn a b c) 0) as [H2|_]; [lra|]. reflexivity.
Qed.

(** ** C18 *)
Definition vol3 (a b c d : pt) := (1/6 * Rabs (pdot (psub b a) (pcross (psub c a) (psub d a))))%R.
Lemma vol3_det a b c d : vol3 a b c d = (Rabs (det4 a b c d) / 6)%R.
Proof. unfold vol3, det4, det, pdot, pcross, psub, vsub. cbn [px py pz]. rewrite Rmult_comm. unfold Rdiv. rewrite Rmult_1_l. f_equal. f_equal. ring. Qed.

Lemma list4_perm_ind {A B} (f : A -> A -> A -> A -> B) :
  (forall a b c d, f b a c d = f a b c d) -> (forall a b c d, f a c b d = f a b c d) -> (forall a b c d, f a b d c = f a b c d) ->
  forall a b c d a' b' c' d', Permutation [a; b; c; d] [a'; b'; c'; d'] -> f a b c d = f a' b' c' d'.
Proof.
  intros H1 H2 H3. pose (F := fun l => match l with [a; b; c; d] => Some (f a b c d) | _ => None end).
  assert (G : forall l l', Permutation l l' -> F l = F l').
  { intros l l' P. apply Permutation_Permutation_transp in P. induction P as [l | x y l1 l2 | l l' l'' _ IH1 _ IH2]; [reflexivity | | congruence].
    destruct l1 as [|p [|q [|r [|s l1]]]]; cbn [app F]; try (destruct l2 as [|u [|v [|w l2]]]; cbn [F]; try reflexivity; f_equal; auto; fail).
    - destruct l1; reflexivity. }
  intros a b c d a' b' c' d' P. specialize (G _ _ P). cbn [F] in G. congruence.
Qed.

Lemma c18 vertex namen nodeid : wf_mesh 3 (zlen vertex) nodeid -> zlen namen = zlen vertex ->
  exists g, build_geometry 3 nodeid vertex namen = Ok g /\ zlen (ge_cells g) = zlen nodeid /\
  forall i, iscell nodeid i -> forall s1 s2 s3 s4, Permutation (cell nodeid i) [s1; s2; s3; s4] ->
     let a := at_node vertex s1 in let b := at_node vertex s2 in let c := at_node vertex s3 in let d := at_node vertex s4 in
     exists cg, nthZ (cg0 []) (ge_cells g) i = cg /\
       cg_volume cg = (Rabs (det4 a b c d) / 6)%R /\
       (nonflat 3 vertex (cell nodeid i) -> (0 < cg_volume cg)%R) /\
       cg_center cg = barycentre [a; b; c; d] /\ cg_nodes cg = cell nodeid i.
Proof.
  intros WF HN. destruct (build_geometry_ok 3 vertex namen nodeid WF HN) as (cn & g & E & Hcn & _ & Ec & _). exists g. split; [exact E|]. rewrite Ec.
  split; [apply zlen_map|]. intros i Hi s1 s2 s3 s4 P. cbv zeta.
  rewrite (nthZ_map _ []) by exact Hi. fold (cell nodeid i). eexists; split; [reflexivity|].
  destruct (wm_rows _ _ _ WF (cell nodeid i)) as (HL & _ & _); [apply nthZ_In; exact Hi|]. destruct (list4 _ HL) as (t1 & t2 & t3 & t4 & Er). rewrite Er in *.
  change (cellgeo_of 3 vertex) with (cellgeo3 vertex). unfold cellgeo3. cbn [cg_volume cg_center cg_nodes].
  change (nthZ 0 [t1; t2; t3; t4] 0) with t1. change (nthZ 0 [t1; t2; t3; t4] 1) with t2. change (nthZ 0 [t1; t2; t3; t4] 2) with t3. change (nthZ 0 [t1; t2; t3; t4] 3) with t4.
  fold (vol3 (V vertex t1) (V vertex t2) (V vertex t3) (V vertex t4)).
  assert (P' : Permutation [V vertex t1; V vertex t2; V vertex t3; V vertex t4] [V vertex s1; V vertex s2; V vertex s3; V vertex s4]) by (apply (Permutation_map (V vertex)) in P; exact P).
  split; [|split; [|split; [|reflexivity]]].
  - rewrite vol3_det. f_equal. apply (list4_perm_ind (fun a b c d => Rabs (det4 a b c d))); [| | | exact P'];
      intros a b c d; rewrite <- Rabs_Ropp; f_equal; unfold det4, det, vsub; cbn [px py pz]; ring.
  - unfold nonflat. cbn [map]. intros (_ & Hne). rewrite vol3_det. pose proof (Rabs_pos_lt _ Hne). lra.
  - transitivity (barycentre [V vertex t1; V vertex t2; V vertex t3; V vertex t4]).
    + unfold barycentre. change (zlen [V vertex t1; V vertex t2; V vertex t3; V vertex t4]) with 4. unfold vsum; cbn [fold_right]. pteq; lra.
    + apply (list4_perm_ind (fun a b c d => barycentre [a; b; c; d])); [| | | exact P']; intros a b c d; unfold barycentre; f_equal; unfold vsum; cbn [fold_right]; pteq; ring.
Qed.

(** ** C19, C23 *)
Lemma sqrt_half_sq x : (0 <= x)%R -> sqrt (/ 4 * x) = (/ 2 * sqrt x)%R.
Proof. intros H. rewrite sqrt_mult by lra. f_equal. replace (/ 4)%R with ((/ 2) * (/ 2))%R by lra. apply sqrt_square. lra. Qed.
Lemma lagrange u v : (px (pcross u v) ^ 2 + py (pcross u v) ^ 2 + pz (pcross u v) ^ 2 = vdot u u * vdot v v - vdot u v * vdot u v)%R.
Proof. unfold pcross, vdot. cbn [px py pz]. ring. Qed.

(** the dot product used for the 2D sign is the full one since the normal has no z component *)
Lemma raw_normal_orth vertex F x y : (zlen F = 2 \/ zlen F = 3) -> In x F -> In y F ->
  vdot (raw_normal vertex F) (vsub (V vertex x) (V vertex y)) = 0%R.
Proof.
  intros [H|H] Hx Hy; unfold raw_normal.
  - destruct (list2 F H) as (a & b & ->). cbn [map]. cbn in Hx, Hy. destruct Hx as [<-|[<-|[]]]; destruct Hy as [<-|[<-|[]]]; unfold vdot, vsub; cbn [px py pz]; ring.
  - destruct (list3 F H) as (a & b & c & ->). cbn [map]. cbn in Hx, Hy.
    destruct Hx as [<-|[<-|[<-|[]]]]; destruct Hy as [<-|[<-|[<-|[]]]]; unfold vdot, vsub, pscal, pcross, psub; cbn [px py pz]; ring.
Qed.
Lemma vdot_opp a b : vdot (pscal (-1) a) b = (- vdot a b)%R.
Proof. unfold vdot, pscal; cbn [px py pz]; ring. Qed.

Section G2.
Context (dim : Z) (vertex : list pt) (namen : list Z) (nodeid : list (list Z)).
Hypothesis WF : wf_mesh dim (zlen vertex) nodeid.
Hypothesis HN : zlen namen = zlen vertex.
Context (cn : conn).
Hypothesis Hcn : build_faces dim (ocells dim vertex nodeid) = Ok cn.
Notation FG := (facegeo_of dim vertex namen nodeid cn).

Lemma raw_normal_z2 F : zlen F = 2 -> pz (raw_normal vertex F) = 0%R.
Proof. intros H. destruct (list2 F H) as (a & b & ->). reflexivity. Qed.
Lemma dot_used_pdot F s : zlen F = dim -> dot_used dim s (raw_normal vertex F) = vdot s (raw_normal vertex F).
Proof.
  intros H. unfold dot_used. destruct (wm_dim _ _ _ WF) as [Ed|Ed]; rewrite Ed in *; cbn [Z.eqb Pos.eqb].
  - unfold vdot. rewrite raw_normal_z2 by exact H. ring.
  - reflexivity.
Qed.
(** normal = +-raw normal, not pointing to the left centre *)
Lemma normal_cases f : 0 <= f < zlen (cn_faces cn) ->
  let n := fg_normal (FG f) in let n0 := raw_normal vertex (nthZ [] (cn_faces cn) f) in
  (n = n0 \/ n = pscal (-1) n0) /\ (vdot (vsub (centerc dim vertex nodeid (cleft cn f)) (fg_center (FG f))) n <= 0)%R.
Proof.
  intros Hf. cbv zeta. destruct (face_row dim vertex nodeid WF cn Hcn f Hf) as (HLF & _ & _). unfold facegeo_of. cbn [fg_normal fg_center].
  set (F := nthZ [] (cn_faces cn) f) in *. rewrite dot_used_pdot by exact HLF.
  change (psub (centerc dim vertex nodeid (cleft cn f)) (mid vertex F)) with (vsub (centerc dim vertex nodeid (cleft cn f)) (mid vertex F)).
  set (s := vsub (centerc dim vertex nodeid (cleft cn f)) (mid vertex F)).
  destruct (orient_away_cases (raw_normal vertex F) (vdot s (raw_normal vertex F))) as [(-> & H)|(-> & H)].
  - split; [auto | exact H].
  - split; [auto|]. assert (Ex : vdot s (pscal (-1) (raw_normal vertex F)) = (- vdot s (raw_normal vertex F))%R) by (unfold vdot, pscal; cbn [px py pz]; ring). rewrite Ex. lra.
Qed.
Lemma normal_orth f x y : 0 <= f < zlen (cn_faces cn) -> In x (nthZ [] (cn_faces cn) f) -> In y (nthZ [] (cn_faces cn) f) ->
  vdot (fg_normal (FG f)) (vsub (V vertex x) (V vertex y)) = 0%R.
Proof.
  intros Hf Hx Hy. destruct (face_row dim vertex nodeid WF cn Hcn f Hf) as (HLF & _ & _).
  assert (H0 : vdot (raw_normal vertex (nthZ [] (cn_faces cn) f)) (vsub (V vertex x) (V vertex y)) = 0%R)
    by (apply raw_normal_orth; [destruct (wm_dim _ _ _ WF); [left|right]; lia | exact Hx | exact Hy]).
  destruct (proj1 (normal_cases f Hf)) as [E|E]; rewrite E; [exact H0|]. rewrite vdot_opp, H0. ring.
Qed.
Lemma mesure_len f : 0 <= f < zlen (cn_faces cn) -> fg_mesure (FG f) = vlen (fg_normal (FG f)) /\ (dim = 3 \/ planar vertex -> fg_mesure (FG f) = facet_measure vertex (nthZ [] (cn_faces cn) f)).
Proof.
  intros Hf. pose proof (proj1 (normal_cases f Hf)) as Hn. destruct (face_row dim vertex nodeid WF cn Hcn f Hf) as (HLF & _ & Hrng).
  assert (E1 : fg_mesure (FG f) = vlen (fg_normal (FG f))).
  { remember (fg_normal (FG f)) as n eqn:En. transitivity (if dim =? 2 then sqrt (px n ^ 2 + py n ^ 2) else sqrt (px n ^ 2 + py n ^ 2 + pz n ^ 2)); [subst n; reflexivity|].
    unfold vlen, vdot. destruct (wm_dim _ _ _ WF) as [Ed|Ed]; rewrite Ed in *; cbn [Z.eqb Pos.eqb].
    - assert (Hz : pz n = 0%R) by (destruct Hn as [-> | ->]; [apply raw_normal_z2; exact HLF | cbn [pz pscal]; rewrite raw_normal_z2 by exact HLF; ring]).
      f_equal. rewrite Hz. ring.
    - f_equal. ring. }
  split; [exact E1|]. intros Hpl. rewrite E1.
  assert (E2 : vlen (fg_normal (FG f)) = vlen (raw_normal vertex (nthZ [] (cn_faces cn) f))).
  { destruct Hn as [-> | ->]; [reflexivity|]. unfold vlen. f_equal. unfold vdot, pscal. cbn [px py pz]. ring. }
  rewrite E2. set (F := nthZ [] (cn_faces cn) f) in *. unfold facet_measure, raw_normal.
  destruct (wm_dim _ _ _ WF) as [Ed|Ed]; rewrite Ed in *.
  - destruct (list2 F HLF) as (a & b & EF). rewrite EF in *. cbn [map]. destruct Hpl as [Hpl|Hpl]; [lia|].
    assert (pz (V vertex a) = 0%R /\ pz (V vertex b) = 0%R) as (Za & Zb) by (split; apply Hpl, nthZ_In, Hrng; cbn; auto).
    unfold vlen. f_equal. unfold vdot, vsub. cbn [px py pz]. rewrite Za, Zb. ring.
  - destruct (list3 F HLF) as (a & b & c & EF). rewrite EF in *. cbn [map]. unfold triangle_area. cbv zeta.
    change (psub (V vertex b) (V vertex a)) with (vsub (V vertex b) (V vertex a)). change (psub (V vertex c) (V vertex a)) with (vsub (V vertex c) (V vertex a)).
    set (u := vsub (V vertex b) (V vertex a)). set (v := vsub (V vertex c) (V vertex a)). rewrite <- lagrange. rewrite <- sqrt_half_sq by nra. unfold vlen. f_equal.
    unfold vdot, pscal. cbn [px py pz]. lra.
Qed.
End G2.
