(** * Proofs_bc: the boundary conditions of a variable. *)
From Verif Require Import Py PyLemmas Model_part Model_label Model_conn Model_geom Spec_geom Model_interp Spec_interp Model_bc Spec_bc Proofs_conn1 Proofs_label.
From Coq Require Import Permutation Lra ZifyBool Sorted.
Open Scope Z_scope.

(** ** writes *)
Lemma foldM_writes {A} (d : A) (F : Z -> res A) (val : Z -> A) faces (g : list A) :
  (forall i, In i faces -> 0 <= i < zlen g /\ F i = Ok (val i)) ->
  exists g', foldM (fun g i => do v <- F i; set g i v) faces g = Ok g' /\ zlen g' = zlen g /\
    forall i, 0 <= i -> nthZ d g' i = if mem i faces then val i else nthZ d g i.
Proof.
  revert g. induction faces as [|f faces IH]; intros g H; [exists g; split; [reflexivity|split; [reflexivity|intros; reflexivity]]|].
  destruct (H f (or_introl eq_refl)) as (H1 & H2). cbn [foldM]. rewrite H2. cbn [bind]. rewrite set_upd by exact H1. cbn [bind].
  destruct (IH (upd g f (val f))) as (g' & E & HL & HV). { intros i Hi. rewrite zlen_upd. apply H. right; exact Hi. }
  exists g'. rewrite zlen_upd in HL. split; [exact E|]. split; [exact HL|]. intros i Hi. rewrite HV by exact Hi. cbn [mem existsb].
  change (existsb (Z.eqb i) faces) with (mem i faces). destruct (mem i faces); [rewrite orb_true_r; reflexivity|]. rewrite orb_false_r.
  rewrite nthZ_upd by (try exact H1; exact Hi). destruct (Z.eqb_spec f i) as [->|N]; [rewrite Z.eqb_refl; reflexivity|]. destruct (Z.eqb_spec i f) as [->|_]; [contradiction|reflexivity].
Qed.

Lemma foldM_total {S X} (P : S -> Prop) (f : S -> X -> res S) l s : P s -> (forall s x, P s -> In x l -> exists s', f s x = Ok s' /\ P s') -> exists s', foldM f l s = Ok s' /\ P s'.
Proof.
  revert s. induction l as [|x l IH]; intros s Hs H; [exists s; split; [reflexivity|exact Hs]|]. cbn [foldM]. destruct (H s x Hs (or_introl eq_refl)) as (s1 & E & H1). rewrite E. cbn [bind].
  apply IH; [exact H1|]. intros s2 y H2 Hy. apply H; [exact H2 | right; exact Hy].
Qed.

Lemma hset_ok h r i v : 0 <= r < zlen h -> 0 <= i < zlen (nthZ [] h r) -> hset h r i v = Ok (upd h r (upd (nthZ [] h r) i v)).
Proof. intros Hr Hi. unfold hset. rewrite (get_nthZ []) by exact Hr. cbn [bind]. rewrite set_upd by exact Hi. cbn [bind]. apply set_upd; exact Hr. Qed.

(** h' differs from h only in the arrays [rs]; all the sizes are kept *)
Definition frame (rs : list Z) (h h' : heap) : Prop :=
  zlen h' = zlen h /\ forall r, 0 <= r < zlen h -> zlen (nthZ [] h' r) = zlen (nthZ [] h r) /\ (~ In r rs -> nthZ [] h' r = nthZ [] h r).
Lemma frame_refl rs h : frame rs h h. Proof. split; [reflexivity|]. intros; split; reflexivity. Qed.
Lemma frame_trans rs rs' h1 h2 h3 : frame rs h1 h2 -> frame rs' h2 h3 -> frame (rs ++ rs') h1 h3.
Proof.
  intros (A1 & B1) (A2 & B2). split; [congruence|]. intros r Hr. destruct (B1 r Hr) as (C1 & D1). destruct (B2 r) as (C2 & D2); [lia|]. split; [congruence|]. intros N.
  rewrite D2, D1; [reflexivity | |]; intro; apply N; apply in_or_app; auto.
Qed.
Lemma frame_incl rs rs' h1 h2 : frame rs h1 h2 -> (forall r, In r rs -> In r rs') -> frame rs' h1 h2.
Proof. intros (A1 & B1) I. split; [exact A1|]. intros r Hr. destruct (B1 r Hr) as (C1 & D1). split; [exact C1|]. intros N. apply D1. intro; apply N; auto. Qed.
Lemma frame_upd h r a : 0 <= r < zlen h -> zlen a = zlen (nthZ [] h r) -> frame [r] h (upd h r a).
Proof.
  intros Hr Ha. split; [apply zlen_upd|]. intros q Hq. destruct (Z.eq_dec r q) as [->|N].
  - rewrite nthZ_upd_eq by exact Hq. split; [exact Ha|]. intros NI. exfalso; apply NI; left; reflexivity.
  - rewrite nthZ_upd_neq by lia. split; [reflexivity | reflexivity].
Qed.
Lemma frame_hset h r i v : 0 <= r < zlen h -> 0 <= i < zlen (nthZ [] h r) -> exists h', hset h r i v = Ok h' /\ frame [r] h h'.
Proof. intros Hr Hi. exists (upd h r (upd (nthZ [] h r) i v)). split; [apply hset_ok; assumption | apply frame_upd; [exact Hr | apply zlen_upd]]. Qed.

Lemma In_where name v f : In f (where_eq name v) <-> 0 <= f < zlen name /\ nthZ 0 name f = v.
Proof. unfold where_eq. rewrite filter_In, in_range, Z.eqb_eq. tauto. Qed.
Lemma zlen0_nil {A} (l : list A) : zlen l = 0 -> l = []. Proof. destruct l; [reflexivity|]. rewrite zlen_cons. pose proof (zlen_nonneg l). lia. Qed.

Section WithD.
Context (D : bcdom) (WF : wf_bcdom D).
Let nf := zlen (bd_name D).

Lemma bc_faces_in l f : In f (bc_faces D l) <-> 0 <= f < nf /\ face_name D f = side_label l.
Proof. apply In_where. Qed.
Lemma bc_faces_disjoint l l' f : In f (bc_faces D l) -> In f (bc_faces D l') -> l = l'.
Proof. rewrite !bc_faces_in. intros (_ & E) (_ & E'). rewrite E in E'. destruct l, l'; cbn in E'; (reflexivity || discriminate E'). Qed.
Lemma periodic_no_faces l : In l (sides (bd_dim D)) -> side_periodic D l -> bc_faces D l = [].
Proof.
  intros HL H. destruct (bc_faces D l) as [|f r] eqn:E; [reflexivity|]. exfalso. assert (Hf : In f (bc_faces D l)) by (rewrite E; left; reflexivity).
  apply bc_faces_in in Hf. destruct Hf as (H1 & H2). apply (wb_periodic D WF l HL H). rewrite <- H2. apply nthZ_In. exact H1.
Qed.
Lemma per_spec v : negb (zlen (where_eq (bd_name D) v) =? 0) = true <-> In v (bd_name D).
Proof.
  split.
  - intros H. destruct (where_eq (bd_name D) v) as [|f r] eqn:E; [discriminate H|]. assert (Hf : In f (where_eq (bd_name D) v)) by (rewrite E; left; reflexivity). apply In_where in Hf. destruct Hf as (H1 & <-). apply nthZ_In; exact H1.
  - intros H. destruct (In_nthZ 0 _ _ H) as (f & Hf & En). assert (Hin : In f (where_eq (bd_name D) v)) by (apply In_where; split; assumption). destruct (where_eq (bd_name D) v) as [|x r]; [destruct Hin|]. rewrite zlen_cons. pose proof (zlen_nonneg r). lia.
Qed.
Lemma domain_bc_ok l : In l (sides (bd_dim D)) -> exists p i, domain_bc D l = Ok (p, i) /\ (p = true <-> side_periodic D l) /\ (p = true -> i = periodic_label l).
Proof.
  assert (X : forall v (a b : Z) w, (In v (bd_name D) <-> In w (bd_name D)) -> exists p i, (ret (if negb (zlen (where_eq (bd_name D) v) =? 0) then (true, a) else (false, b))) = Ok (p, i) /\ (p = true <-> In w (bd_name D)) /\ (p = true -> i = a)).
  { intros v a b w HW. pose proof (per_spec v) as HP. destruct (negb _); eexists; eexists; (split; [reflexivity|]); (split; [rewrite <- HW; exact HP|]); intros; (reflexivity || discriminate). }
  pose proof (wb_pairs D WF) as PW. unfold side_periodic in *.
  unfold sides, domain_bc. destruct (bd_dim D =? 3) eqn:E; cbn [In]; intros H.
  - destruct H as [<-|[<-|[<-|[<-|[<-|[<-|[]]]]]]]; apply X; try reflexivity; split; [apply (PW LIn) | apply (PW LOut) | apply (PW LUpper) | apply (PW LBottom) | apply (PW LFront) | apply (PW LBack)].
  - destruct H as [<-|[<-|[<-|[<-|[]]]]]; apply X; try reflexivity; split; [apply (PW LIn) | apply (PW LOut) | apply (PW LUpper) | apply (PW LBottom)].
Qed.

(** ** the values written for one dirichlet side *)
Lemma write_faces_ok l v vf h : 0 <= vf < zlen h -> zlen (nthZ [] h vf) = nf ->
  exists h', foldM (fun h i => do x <- get (bd_fcenter D) i; match eval_val v x with Some y => hset h vf i y | None => ret h end) (bc_faces D l) h = Ok h' /\ frame [vf] h h' /\
  forall f, 0 <= f -> nthZ 0%R (nthZ [] h' vf) f = match eval_val v (nthZ vzero (bd_fcenter D) f) with Some y => if mem f (bc_faces D l) then y else nthZ 0%R (nthZ [] h vf) f | None => nthZ 0%R (nthZ [] h vf) f end.
Proof.
  intros Hvf. assert (HB : forall i, In i (bc_faces D l) -> 0 <= i < nf) by (intros i Hi; apply bc_faces_in in Hi; tauto). revert Hvf. revert h.
  induction (bc_faces D l) as [|i fs IH]; intros h Hvf HL; [exists h; split; [reflexivity|split; [apply frame_refl|]]; intros f Hf; cbn; destruct (eval_val _ _); reflexivity|].
  assert (Hi : 0 <= i < nf) by (apply HB; left; reflexivity). cbn [foldM]. rewrite (get_nthZ vzero) by (rewrite (proj1 (wb_len D WF)); exact Hi). cbn [bind].
  destruct (eval_val v (nthZ vzero (bd_fcenter D) i)) as [y|] eqn:Ey.
  - rewrite hset_ok by (try exact Hvf; lia). cbn [bind]. set (h1 := upd h vf _).
    assert (F1 : frame [vf] h h1) by (apply frame_upd; [exact Hvf | apply zlen_upd]).
    destruct (IH (fun j Hj => HB j (or_intror Hj)) h1) as (h' & E & F & V). { unfold h1; rewrite zlen_upd; exact Hvf. } { unfold h1; rewrite nthZ_upd_eq, zlen_upd by exact Hvf; exact HL. }
    exists h'. split; [exact E|]. split. { apply (frame_incl ([vf] ++ [vf])); [exact (frame_trans _ _ _ _ _ F1 F)|]. intros r Hr. destruct Hr as [H|[H|[]]]; left; exact H. }
    intros f Hf. rewrite V by exact Hf. unfold h1. rewrite nthZ_upd_eq by exact Hvf. cbn [mem existsb]. change (existsb (Z.eqb f) fs) with (mem f fs).
    rewrite nthZ_upd by (try exact Hf; lia). destruct (Z.eqb_spec f i) as [->|N]; [|destruct (Z.eqb_spec i f) as [->|_]; [contradiction|reflexivity]].
    rewrite Ey, ?Z.eqb_refl. cbn [orb]. destruct (mem i fs); reflexivity.
  - cbn [bind]. destruct (IH (fun j Hj => HB j (or_intror Hj)) h Hvf HL) as (h' & E & F & V). exists h'. split; [exact E|]. split; [exact F|].
    intros f Hf. rewrite V by exact Hf. cbn [mem existsb]. change (existsb (Z.eqb f) fs) with (mem f fs). destruct (Z.eqb_spec f i) as [->|N]; [rewrite Ey; reflexivity | reflexivity].
Qed.

Lemma write_node_ok v vn vh h i : 0 <= i < bd_nbnodes D -> 0 <= vn < zlen h -> 0 <= vh < zlen h -> zlen (nthZ [] h vn) = bd_nbnodes D -> zlen (nthZ [] h vh) = bd_sizehg D ->
  exists h', write_node D vn vh v h i = Ok h' /\ frame [vn; vh] h h'.
Proof.
  intros Hi Hn Hh Ln Lh. destruct (wb_len D WF) as (_ & _ & _ & LV & LG & LI). unfold write_node. rewrite (get_nthZ vzero) by lia. cbn [bind].
  assert (exists h1, (match eval_val v (nthZ vzero (bd_vertex D) i) with Some y => hset h vn i y | None => ret h end) = Ok h1 /\ frame [vn; vh] h h1) as (h1 & E1 & F1).
  { destruct (eval_val v _) as [y|]; [|exists h; split; [reflexivity | apply frame_refl]]. destruct (frame_hset h vn i y Hn) as (h1 & E & F); [lia|]. exists h1. split; [exact E|]. apply (frame_incl [vn]); [exact F|]. intros r [H|[]]; left; exact H. }
  match goal with |- context [bind ?m _] => replace m with (@Ok heap h1) by (symmetry; exact E1) end. cbn [bind]. rewrite (get_nthZ []) by lia. cbn [bind]. destruct (wb_hg D WF i Hi) as (HLI & HE).
  destruct (foldM_total (fun g => frame [vn; vh] h g) (write_halo D vh v i) (range (zlen (nthZ [] (bd_hg D) i))) h1 F1) as (h2 & E2 & F2); [|exists h2; split; [exact E2 | exact F2]].
  intros g j Fg Hj. apply in_range in Hj. unfold write_halo. rewrite (get_nthZ []) by lia. cbn [bind].
  rewrite (get_nthZ gpad) by exact Hj. cbn [bind]. set (e := nthZ gpad (nthZ [] (bd_hg D) i) j). assert (He : In e (nthZ [] (bd_hg D) i)) by (apply nthZ_In; exact Hj).
  destruct (g_last e =? -1) eqn:EL; [exists g; split; [reflexivity | exact Fg]|]. destruct (HE e He) as [H|(H & _)]; [lia|].
  assert (exists c, (match v with VFun _ => get2 (bd_hginfo D) i j | _ => ret p0 end) = Ok c) as (c & Ec). { destruct v; eauto. exists (nthZ vzero (nthZ [] (bd_hginfo D) i) j). apply (get2_nthZ vzero); lia. }
  rewrite Ec. cbn [bind]. destruct (eval_val v c) as [x|]; [|exists g; split; [reflexivity | exact Fg]].
  destruct Fg as (Fl & Fr). destruct (Fr vh Hh) as (Fr1 & _).
  destruct (frame_hset g vh (g_last e) x) as (g' & Eg & Fg'); [lia | lia|]. exists g'. split; [exact Eg|]. apply (frame_incl ([vn; vh] ++ [vh])); [refine (frame_trans _ _ _ _ _ (conj Fl Fr) Fg')|].
  intros r [H0|[H0|[H0|[]]]]; [left | right; left | right; left]; exact H0.
Qed.

Lemma write_values_ok l index v vf vn vh h : 0 <= vf < zlen h -> 0 <= vn < zlen h -> 0 <= vh < zlen h -> vf <> vn -> vf <> vh ->
  zlen (nthZ [] h vf) = nf -> zlen (nthZ [] h vn) = bd_nbnodes D -> zlen (nthZ [] h vh) = bd_sizehg D ->
  exists h', write_values D l index v vf vn vh h = Ok h' /\ frame [vf; vn; vh] h h' /\
  forall f, 0 <= f -> nthZ 0%R (nthZ [] h' vf) f = match eval_val v (nthZ vzero (bd_fcenter D) f) with Some y => if mem f (bc_faces D l) then y else nthZ 0%R (nthZ [] h vf) f | None => nthZ 0%R (nthZ [] h vf) f end.
Proof.
  intros Hf Hn Hh N1 N2 Lf Ln Lh. destruct (write_faces_ok l v vf h Hf Lf) as (h1 & E1 & F1 & V1).
  assert (exists h', (do h <- foldM (fun h i => do x <- get (bd_fcenter D) i; match eval_val v x with Some y => hset h vf i y | None => ret h end) (bc_faces D l) h;
                      foldM (write_node D vn vh v) (where_eq (bd_oldname D) index) h) = Ok h' /\ frame [vn; vh] h1 h') as (h2 & E2 & F2).
  { rewrite E1. cbn [bind]. apply (foldM_total (fun g => frame [vn; vh] h1 g)); [apply frame_refl|]. intros g i (Gl & Gr) Hi. apply In_where in Hi. destruct (wb_len D WF) as (_ & _ & LO & _). destruct F1 as (Fl & Fr).
    destruct (Fr vn Hn) as (Fn & _), (Fr vh Hh) as (Fh & _). destruct (Gr vn) as (Gn & _); [lia|]. destruct (Gr vh) as (Gh & _); [lia|].
    destruct (write_node_ok v vn vh g i) as (g' & Eg & Fg); [lia | lia | lia | congruence | congruence|]. exists g'. split; [exact Eg|].
    apply (frame_incl ([vn; vh] ++ [vn; vh])); [exact (frame_trans _ _ _ _ _ (conj Gl Gr) Fg)|]. cbn [app In]. tauto. }
  assert (FT : frame [vf; vn; vh] h h2). { apply (frame_incl ([vf] ++ [vn; vh])); [exact (frame_trans _ _ _ _ _ F1 F2) | tauto]. }
  assert (VT : nthZ [] h2 vf = nthZ [] h1 vf). { destruct F2 as (_ & Fr). destruct F1 as (Fl & _). destruct (Fr vf) as (_ & X); [lia|]. apply X. cbn [In]. intuition congruence. }
  unfold write_values. destruct v; [exists h2; split; [exact E2 | split; [exact FT|]]; rewrite VT; exact V1 .. |].
  exists h. split; [reflexivity|]. split; [apply frame_refl|]. intros f _. reflexivity.
Qed.
End WithD.
