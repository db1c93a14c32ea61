(** * Proofs_linsys8: the boundary data of the linear system (C52). *)
From Verif Require Import Py PyLemmas Model_part Model_label Model_conn Model_geom Spec_geom Model_interp Spec_interp Model_bc Spec_bc Proofs_conn1 Proofs_label Proofs_bc Proofs_bc2 Model_linsys.
From Verif Require Import Spec_linsys.
From Verif Require Import Spec_bc.
From Coq Require Import Permutation Lra ZifyBool Sorted.
Open Scope Z_scope.

Lemma hset_other h r i v h' k : 0 <= r -> 0 <= k -> k <> r -> hset h r i v = Ok h' -> nthZ [] h' k = nthZ [] h k /\ zlen h' = zlen h.
Proof.
  intros Hr Hk N E. unfold hset in E. destruct (get h r) as [a|] eqn:E1; [|discriminate]. cbn [bind] in E. destruct (set a i v) as [a'|]; [|discriminate]. cbn [bind] in E.
  assert (HR : r < zlen h). { unfold set in E. destruct (r <? 0) eqn:X; [lia|]. destruct ((r <? 0) || (zlen h <=? r)) eqn:Y; [discriminate E | lia]. }
  rewrite set_upd in E by lia. injection E as <-. split; [apply nthZ_upd_neq; lia | apply zlen_upd].
Qed.

(** the value side l prescribes at node k *)
Section WithD.
Context (D : bcdom) (WF : wf_bcdom D).
Notation nn := (bd_nbnodes D).
Lemma write_halo_other vh v i h j h' k : 0 <= vh -> 0 <= k -> k <> vh -> write_halo D vh v i h j = Ok h' -> nthZ [] h' k = nthZ [] h k.
Proof.
  intros H1 H2 N E. unfold write_halo in E. apply bind_ok in E as (row & _ & E). apply bind_ok in E as (e & _ & E). destruct (g_last e =? -1); [injection E as <-; reflexivity|].
  apply bind_ok in E as (c & _ & E). destruct (eval_val v c); [|injection E as <-; reflexivity]. apply (hset_other h vh (g_last e) r h' k H1 H2 N E).
Qed.
Lemma write_node_vals vn vh v h i h' : 0 <= vn < zlen h -> 0 <= vh -> vn <> vh -> zlen (nthZ [] h vn) = nn -> 0 <= i < nn -> write_node D vn vh v h i = Ok h' ->
  nthZ [] h' vn = match eval_val v (nthZ vzero (bd_vertex D) i) with Some y => upd (nthZ [] h vn) i y | None => nthZ [] h vn end.
Proof.
  intros Hn Hh N Ln Hi E. destruct (wb_len D WF) as (_ & _ & _ & LV & _). unfold write_node in E. rewrite (get_nthZ vzero) in E by lia. cbn [bind] in E. apply bind_ok in E as (h1 & E1 & E). apply bind_ok in E as (row & _ & E).
  assert (EH : nthZ [] h' vn = nthZ [] h1 vn).
  { apply (foldM_ok_inv (fun _ g => nthZ [] g vn = nthZ [] h1 vn) _ _ _ _ E eq_refl). intros done x rest g g' _ IH Eg. rewrite <- IH. apply (write_halo_other vh v i g x g' vn); lia || assumption. }
  rewrite EH. destruct (eval_val v _) as [y|]; [|injection E1 as <-; reflexivity]. rewrite hset_ok in E1 by lia. injection E1 as <-. apply nthZ_upd_eq. exact Hn.
Qed.
(** a value at every node of a list *)
Definition node_val (v : bcval) (k : Z) : option R := eval_val v (nthZ vzero (bd_vertex D) k).
Lemma write_nodes_vals vn vh v : 0 <= vh -> vn <> vh -> forall l h h', (forall i, In i l -> 0 <= i < nn) -> 0 <= vn < zlen h -> zlen (nthZ [] h vn) = nn -> 0 <= vh < zlen h -> zlen (nthZ [] h vh) = bd_sizehg D -> foldM (write_node D vn vh v) l h = Ok h' ->
  forall k, 0 <= k < nn -> nthZ 0%R (nthZ [] h' vn) k = if mem k l then match node_val v k with Some y => y | None => nthZ 0%R (nthZ [] h vn) k end else nthZ 0%R (nthZ [] h vn) k.
Proof.
  intros Hh N. induction l as [|i l IH]; intros h h' Hl Hn Ln HVh Lh E k Hk; [injection E as <-; reflexivity|]. cbn [foldM] in E. apply bind_ok in E as (h1 & E1 & E).
  assert (Hi : 0 <= i < nn) by (apply Hl; left; reflexivity). pose proof (write_node_vals vn vh v h i h1 Hn Hh N Ln Hi E1) as V1.
  destruct (write_node_ok D WF v vn vh h i Hi Hn HVh Ln Lh) as (h1' & E1' & F). assert (h1' = h1) by congruence. subst h1'. destruct F as (FL & FR). destruct (FR vn Hn) as (F1 & _). destruct (FR vh HVh) as (F2 & _).
  rewrite (IH h1 h') by (try assumption; try lia; intros j Hj; apply Hl; right; exact Hj). rewrite V1. cbn [mem existsb]. change (existsb (Z.eqb k) l) with (mem k l). unfold node_val in *.
  destruct (Z.eqb_spec k i) as [->|Nk]; cbn [orb].
  - destruct (eval_val v _) as [y|]; [rewrite nthZ_upd_eq by lia|]; destruct (mem i l); reflexivity.
  - destruct (eval_val v (nthZ vzero (bd_vertex D) i)) as [y|]; [rewrite nthZ_upd_neq by lia|]; reflexivity.
Qed.
Lemma write_values_nodes l index v vf vn vh h h' : 0 <= vf < zlen h -> 0 <= vn < zlen h -> 0 <= vh < zlen h -> vf <> vn -> vn <> vh ->
  zlen (nthZ [] h vf) = zlen (bd_name D) -> zlen (nthZ [] h vn) = nn -> zlen (nthZ [] h vh) = bd_sizehg D -> vf <> vh -> write_values D l index v vf vn vh h = Ok h' ->
  forall k, 0 <= k < nn -> nthZ 0%R (nthZ [] h' vn) k = if nthZ 0 (bd_oldname D) k =? index then match node_val v k with Some y => y | None => nthZ 0%R (nthZ [] h vn) k end else nthZ 0%R (nthZ [] h vn) k.
Proof.
  intros Hf Hn Hh N1 N2 Lf Ln Lh N3 E k Hk. unfold write_values in E.
  assert (HM : mem k (where_eq (bd_oldname D) index) = (nthZ 0 (bd_oldname D) k =? index)).
  { destruct (wb_len D WF) as (_ & _ & LO & _). apply eq_true_iff_eq. rewrite mem_In, In_where, Z.eqb_eq. lia. }
  destruct (write_faces_ok D WF l v vf h Hf Lf) as (h1 & E1 & (FL & FR) & _). destruct (FR vn Hn) as (Fn & Fn'). destruct (FR vh Hh) as (Fh & _).
  assert (EV : nthZ [] h1 vn = nthZ [] h vn) by (apply Fn'; cbn [In]; intuition congruence).
  assert (G : (do h <- foldM (fun h i => do x <- get (bd_fcenter D) i; match eval_val v x with Some y => hset h vf i y | None => ret h end) (bc_faces D l) h; foldM (write_node D vn vh v) (where_eq (bd_oldname D) index) h) = Ok h' ->
     nthZ 0%R (nthZ [] h' vn) k = if nthZ 0 (bd_oldname D) k =? index then match node_val v k with Some y => y | None => nthZ 0%R (nthZ [] h vn) k end else nthZ 0%R (nthZ [] h vn) k).
  { rewrite E1. cbn [bind]. intros E2. rewrite (write_nodes_vals vn vh v (proj1 Hh) N2 (where_eq (bd_oldname D) index) h1 h') with (k := k); try assumption; try lia; [rewrite HM, EV; reflexivity|].
    intros i Hi. apply In_where in Hi. destruct (wb_len D WF) as (_ & _ & LO & _). lia. }
  destruct v; [apply G; exact E | apply G; exact E|]. injection E as <-. unfold node_val. cbn [eval_val]. destruct (_ =? _); reflexivity.
Qed.

Lemma domain_bc_label l : In l (sides (bd_dim D)) -> forall p i, domain_bc D l = Ok (p, i) -> p = false -> i = side_label l.
Proof.
  intros Hl p i E Hp. subst p. unfold domain_bc in E. cbv zeta in E. destruct l; cbn [side_label]; try (destruct (bd_dim D =? 3); [|discriminate E]); try (destruct (negb _); [discriminate E | injection E as <-; reflexivity]). discriminate E.
Qed.
Record inv2 (vs : list (loc * bcval)) (done : list (loc * bctype)) (s : vstate) : Prop := {
  j_bcs : forall l t, In (l, t) done -> exists b, lookup (vs_bcs s) l = Some b /\ (t <> BPeriodic -> b_index b = side_label l) /\ (t = BDirichlet -> b_vnode b = r_vnode);
  j_node : forall k l, In (l, BDirichlet) done -> 0 <= k < nn -> nthZ 0 (bd_oldname D) k = side_label l -> nthZ 0%R (nthZ [] (vs_heap s) 6) k = prescribed_node D vs l k;
  j_zero : forall k, 0 <= k < nn -> (forall l, In (l, BDirichlet) done -> nthZ 0 (bd_oldname D) k <> side_label l) -> nthZ 0%R (nthZ [] (vs_heap s) 6) k = 0%R;
  j_bcd : vs_bcd s = flat_map (fun e => match snd e with BDirichlet => [side_label (fst e)] | _ => [] end) done }.
Lemma init_inv2 vs : inv2 vs [] (init_state D).
Proof.
  constructor; [intros ? ? [] | intros ? ? [] | | reflexivity]. intros k Hk _. change (nthZ 0%R (zeros_like 0%R nn) k = 0%R). apply nthZ_zeros_like. exact Hk.
Qed.
Lemma side_label_inj l l' : In l (sides (bd_dim D)) -> In l' (sides (bd_dim D)) -> side_label l = side_label l' -> l = l'.
Proof. unfold sides. destruct (bd_dim D =? 3); cbn [In]; intros H H'; destruct l, l'; cbn [side_label]; intros E; try discriminate E; try reflexivity; intuition discriminate. Qed.
Lemma entry_step2 vs done s l t s' : inv D vs done s -> inv2 vs done s -> ~ In l (map fst done) -> (forall k t', In (k, t') done -> In k (sides (bd_dim D))) -> In l (sides (bd_dim D)) -> t <> BSlip -> t <> BOther ->
  (t = BDirichlet -> forall e, In e done -> neu_like (snd e) = false) -> bc_entry D (Some vs) s (l, t) = Ok s' -> inv2 vs (done ++ [(l, t)]) s'.
Proof.
  intros I J Hl HK HL T1 T2 HD E. unfold bc_entry in E. apply bind_ok in E as ((p & i) & ED & E).
  assert (NB : forall (b : boundary), (t <> BPeriodic -> b_index b = side_label l) -> (t = BDirichlet -> b_vnode b = r_vnode) ->
     forall k t', In (k, t') (done ++ [(l, t)]) -> exists b', lookup (put (vs_bcs s) l b) k = Some b' /\ (t' <> BPeriodic -> b_index b' = side_label k) /\ (t' = BDirichlet -> b_vnode b' = r_vnode)).
  { intros b B1 B2 k t' Hk. apply in_app_or in Hk. rewrite lookup_put. destruct Hk as [Hk | [Hk | []]].
    - rewrite loc_eqb_neq; [exact (j_bcs _ _ _ J k t' Hk)|]. intros ->. apply Hl. apply in_map_iff. exists (k, t'). split; [reflexivity | exact Hk].
    - injection Hk as <- <-. exists b. rewrite (proj2 (loc_eqb_eq l l) eq_refl). split; [reflexivity|]. split; assumption. }
  assert (BD : flat_map (fun e : loc * bctype => match snd e with BDirichlet => [side_label (fst e)] | _ => [] end) (done ++ [(l, t)]) = vs_bcd s ++ match t with BDirichlet => [side_label l] | _ => [] end).
  { rewrite flat_map_app, (j_bcd _ _ _ J). cbn [flat_map fst snd]. rewrite app_nil_r. reflexivity. }
  destruct (p && match t with BPeriodic => false | _ => true end) eqn:C1; [discriminate E|]. destruct (negb p && match t with BPeriodic => true | _ => false end) eqn:C2; [discriminate E|].
  assert (Hi : t <> BPeriodic -> i = side_label l). { intros N. apply (domain_bc_label l HL p i ED). destruct p; [|reflexivity]. destruct t; cbn in C1; try discriminate C1. contradiction. }
  assert (FV : t <> BDirichlet -> forall h, h = vs_heap s ->
     (forall k l', In (l', BDirichlet) (done ++ [(l, t)]) -> 0 <= k < nn -> nthZ 0 (bd_oldname D) k = side_label l' -> nthZ 0%R (nthZ [] h 6) k = prescribed_node D vs l' k) /\
     (forall k, 0 <= k < nn -> (forall l', In (l', BDirichlet) (done ++ [(l, t)]) -> nthZ 0 (bd_oldname D) k <> side_label l') -> nthZ 0%R (nthZ [] h 6) k = 0%R)).
  { intros N h ->. split.
    - intros k l' Hk. apply (j_node _ _ _ J). apply in_app_or in Hk. destruct Hk as [Hk | [Hk | []]]; [exact Hk|]. injection Hk as _ Hk. contradiction.
    - intros k Hk Hn. apply (j_zero _ _ _ J k Hk). intros l' Hl'. apply Hn. apply in_or_app; left; exact Hl'. }
  destruct t; try contradiction.
  - cbn [new_boundary bind] in E. injection E as <-. destruct (FV ltac:(discriminate) _ eq_refl) as (F1 & F2). constructor; cbn [vs_heap vs_bcs vs_bcd]; [apply NB; [exact Hi | discriminate] | exact F1 | exact F2 | rewrite BD, app_nil_r; reflexivity].
  - cbn [new_boundary bind] in E. destruct (lookup vs l) as [v|] eqn:EV; [|discriminate E]. apply bind_ok in E as (h' & EW & E). injection E as <-. specialize (Hi ltac:(discriminate)). subst i.
    destruct (i_names _ _ _ _ I (HD eq_refl)) as (V1 & V2 & V3). destruct (i_frame _ _ _ _ I) as (FL & FR). pose proof (h0_len D) as HL0. rewrite HL0 in FR, FL.
    destruct (FR 5) as (F5 & _); [lia|]. destruct (FR 6) as (F6 & _); [lia|]. destruct (FR 7) as (F7 & _); [lia|]. rewrite (len_nf D) in F5. rewrite (len_vn D WF) in F6. rewrite (len_vh D WF) in F7.
    rewrite V1, V2, V3 in EW. pose proof (write_values_nodes l (side_label l) v r_vface r_vnode r_vhalo (vs_heap s) h') as VW.
    specialize (VW ltac:(unfold r_vface; lia) ltac:(unfold r_vnode; lia) ltac:(unfold r_vhalo; lia) ltac:(discriminate) ltac:(discriminate) F5 F6 F7 ltac:(discriminate) EW). change r_vnode with 6 in VW.
    constructor; cbn [vs_heap vs_bcs vs_bcd].
    + apply NB; [reflexivity | intros _; rewrite V2; reflexivity].
    + intros k l' Hl' Hk Ek. rewrite (VW k Hk). apply in_app_or in Hl'. destruct Hl' as [Hl' | [Hl' | []]].
      * destruct (Z.eqb_spec (nthZ 0 (bd_oldname D) k) (side_label l)) as [E|_]; [|exact (j_node _ _ _ J k l' Hl' Hk Ek)]. exfalso. apply Hl. apply in_map_iff. exists (l', BDirichlet). split; [|exact Hl']. apply side_label_inj; [exact (HK _ _ Hl') | exact HL | cbn [fst]; congruence].
      * injection Hl' as <-. rewrite Ek, Z.eqb_refl. unfold prescribed_node, node_val. rewrite EV. destruct v; cbn [eval_val]; try reflexivity. apply (j_zero _ _ _ J k Hk).
        intros l' Hl' E. apply Hl. apply in_map_iff. exists (l', BDirichlet). split; [|exact Hl']. apply side_label_inj; [exact (HK _ _ Hl') | exact HL | cbn [fst]; congruence].
    + intros k Hk Hn. rewrite (VW k Hk). destruct (Z.eqb_spec (nthZ 0 (bd_oldname D) k) (side_label l)) as [E|_]; [exfalso; apply (Hn l); [apply in_or_app; right; left; reflexivity | exact E]|]. apply (j_zero _ _ _ J k Hk). intros l' Hl'. apply Hn. apply in_or_app; left; exact Hl'.
    + rewrite BD. reflexivity.
  - cbn [new_boundary bind] in E. injection E as <-. destruct (FV ltac:(discriminate) _ eq_refl) as (F1 & F2). constructor; cbn [vs_heap vs_bcs vs_bcd]; [apply NB; [intros N; contradiction | discriminate] | exact F1 | exact F2 | rewrite BD, app_nil_r; reflexivity].
  - cbn [new_boundary bind] in E. injection E as <-. destruct (FV ltac:(discriminate) _ eq_refl) as (F1 & F2). constructor; cbn [vs_heap vs_bcs vs_bcd]; [apply NB; [exact Hi | discriminate] | exact F1 | exact F2 | rewrite BD, app_nil_r; reflexivity].
Qed.
Lemma loop2 vs rest : forall done s s', inv D vs done s -> inv2 vs done s -> NoDup (map fst (done ++ rest)) -> (forall l t, In (l, t) (done ++ rest) -> In l (sides (bd_dim D)) /\ t <> BSlip /\ t <> BOther) -> dirichlet_first (done ++ rest) ->
  foldM (bc_entry D (Some vs)) rest s = Ok s' -> inv2 vs (done ++ rest) s'.
Proof.
  induction rest as [|(l, t) rest IH]; intros done s s' I J ND HK DF E; [injection E as <-; rewrite app_nil_r; exact J|]. cbn [foldM] in E. apply bind_ok in E as (s1 & E1 & E).
  destruct (HK l t) as (K1 & K2 & K3); [apply in_or_app; right; left; reflexivity|].
  assert (HD : t = BDirichlet -> forall e, In e done -> neu_like (snd e) = false) by (intros ->; exact (dirichlet_first_app done l rest DF)).
  assert (Hl : ~ In l (map fst done)). { rewrite map_app in ND. cbn [map fst] in ND. apply NoDup_remove_2 in ND. intros H; apply ND; apply in_or_app; left; exact H. }
  assert (HKd : forall k t', In (k, t') done -> In k (sides (bd_dim D))) by (intros k t' H; apply (HK k t'); apply in_or_app; left; exact H).
  pose proof (entry_step D WF vs done s l t I Hl K1 K2 K3 HD) as HS. pose proof (entry_step2 vs done s l t s1 I J Hl HKd K1 K2 K3 HD E1) as J1.
  destruct (good D vs (l, t)); [|congruence]. destruct HS as (s2 & E2 & I2). assert (s2 = s1) by congruence. subst s2.
  replace (done ++ (l, t) :: rest) with ((done ++ [(l, t)]) ++ rest) in * by (rewrite <- app_assoc; reflexivity). exact (IH _ _ _ I2 J1 ND HK DF E).
Qed.

(** the loop of the constructor *)
Lemma writes_ok (val : Z -> R) ls : forall p, (forall i, In i ls -> 0 <= i < zlen p) -> exists q, foldM (fun p i => set p i (val i)) ls p = Ok q /\ zlen q = zlen p /\ forall k, 0 <= k < zlen p -> nthZ 0%R q k = if mem k ls then val k else nthZ 0%R p k.
Proof.
  induction ls as [|i ls IH]; intros p H; [exists p; split; [reflexivity|]; split; reflexivity|]. cbn [foldM]. rewrite set_upd by (apply H; left; reflexivity). cbn [bind].
  destruct (IH (upd p i (val i))) as (q & E & L & V). { intros j Hj. rewrite zlen_upd. apply H. right. exact Hj. } exists q. rewrite zlen_upd in *. split; [exact E|]. split; [exact L|]. intros k Hk. rewrite (V k Hk).
  cbn [mem existsb]. change (existsb (Z.eqb k) ls) with (mem k ls). rewrite nthZ_upd by (try lia; apply H; left; reflexivity). destruct (Z.eqb_spec k i) as [->|N]; cbn [orb]; [destruct (mem i ls); reflexivity | reflexivity].
Qed.
Context (vs : list (loc * bcval)) (bc : list (loc * bctype)) (s : vstate) (I : inv D vs bc s) (J : inv2 vs bc s) (KN : bc_known D bc) (CO : bc_complete D bc).
Definition face_exp (l : loc) (t : bctype) (f : Z) : R := match t with BDirichlet => prescribed D vs [] l BDirichlet f | _ => 0%R end.
Definition node_exp (l : loc) (t : bctype) (k : Z) : R := match t with BDirichlet => prescribed_node D vs l k | BNeumann => 1%R | _ => 0%R end.
Definition progress (done : list loc) (B : bord) : Prop :=
  zlen (pb_face B) = zlen (bd_name D) /\ zlen (pb_node B) = nn /\
  (forall l t f, In l done -> In (l, t) bc -> 0 <= f < zlen (bd_name D) -> face_name D f = side_label l -> nthZ 0%R (pb_face B) f = face_exp l t f) /\
  (forall f, 0 <= f < zlen (bd_name D) -> (forall l, In l done -> face_name D f <> side_label l) -> nthZ 0%R (pb_face B) f = 0%R) /\
  (forall l t k, In l done -> In (l, t) bc -> 0 <= k < nn -> nthZ 0 (bd_oldname D) k = side_label l -> nthZ 0%R (pb_node B) k = node_exp l t k) /\
  (forall k, 0 <= k < nn -> (forall l, In l done -> nthZ 0 (bd_oldname D) k <> side_label l) -> nthZ 0%R (pb_node B) k = 0%R).
Lemma bc_fun l t t' : In (l, t) bc -> In (l, t') bc -> t = t'.
Proof.
  destruct KN as (ND & _). clear - ND. induction bc as [|(k, u) r IH]; [intros []|]. cbn [map fst] in ND. inversion_clear ND. intros [E|H1] [E'|H2].
  - congruence.
  - injection E as -> ->. exfalso. apply H. apply in_map_iff. exists (l, t'). split; [reflexivity | exact H2].
  - injection E' as -> ->. exfalso. apply H. apply in_map_iff. exists (l, t). split; [reflexivity | exact H1].
  - apply IH; assumption.
Qed.
(** adding one side that touches its faces and nodes *)
Lemma progress_step done l t B q r : progress done B -> In l (sides (bd_dim D)) -> ~ In l done -> (forall k, In k done -> In k (sides (bd_dim D))) -> In (l, t) bc ->
  zlen q = zlen (bd_name D) -> (forall f, 0 <= f < zlen (bd_name D) -> nthZ 0%R q f = if face_name D f =? side_label l then face_exp l t f else nthZ 0%R (pb_face B) f) ->
  zlen r = nn -> (forall k, 0 <= k < nn -> nthZ 0%R r k = if nthZ 0 (bd_oldname D) k =? side_label l then node_exp l t k else nthZ 0%R (pb_node B) k) ->
  progress (done ++ [l]) {| pb_node := r; pb_face := q |}.
Proof.
  intros (P1 & P2 & P3 & P4 & P5 & P6) Hl Nl HD Hin Lq Vq Lr Vr. split; [exact Lq|]. split; [exact Lr|]. cbn [pb_node pb_face].
  assert (INJ : forall l', In l' done -> side_label l' <> side_label l). { intros l' H E. apply side_label_inj in E; [|apply HD; exact H | exact Hl]. subst l'. contradiction. }
  split; [|split; [|split]].
  - intros l' t' f Hd Hb Hf Ef. rewrite (Vq f Hf). apply in_app_or in Hd. destruct Hd as [Hd|[<-|[]]].
    + destruct (Z.eqb_spec (face_name D f) (side_label l)) as [E|_]; [exfalso; apply (INJ l' Hd); congruence|]. exact (P3 l' t' f Hd Hb Hf Ef).
    + rewrite Ef, Z.eqb_refl. rewrite (bc_fun l t t' Hin Hb). reflexivity.
  - intros f Hf Hn. rewrite (Vq f Hf). destruct (Z.eqb_spec (face_name D f) (side_label l)) as [E|_]; [exfalso; apply (Hn l); [apply in_or_app; right; left; reflexivity | exact E]|]. apply (P4 f Hf). intros l' Hl'. apply Hn. apply in_or_app; left; exact Hl'.
  - intros l' t' k Hd Hb Hk Ek. rewrite (Vr k Hk). apply in_app_or in Hd. destruct Hd as [Hd|[<-|[]]].
    + destruct (Z.eqb_spec (nthZ 0 (bd_oldname D) k) (side_label l)) as [E|_]; [exfalso; apply (INJ l' Hd); congruence|]. exact (P5 l' t' k Hd Hb Hk Ek).
    + rewrite Ek, Z.eqb_refl. rewrite (bc_fun l t t' Hin Hb). reflexivity.
  - intros k Hk Hn. rewrite (Vr k Hk). destruct (Z.eqb_spec (nthZ 0 (bd_oldname D) k) (side_label l)) as [E|_]; [exfalso; apply (Hn l); [apply in_or_app; right; left; reflexivity | exact E]|]. apply (P6 k Hk). intros l' Hl'. apply Hn. apply in_or_app; left; exact Hl'.
Qed.
Lemma pbord_ok v : va_bcs v = vs_bcs s -> Proofs_bc2.shape s (va_heap v) -> exists B, pbord D v = Ok B /\ boundary_data D bc vs B.
Proof.
  intros EB SH. unfold pbord. rewrite EB. pose proof (wb_size D WF) as (_ & SZ & _). pose proof (zlen_nonneg (bd_name D)) as NF. destruct (wb_len D WF) as (_ & _ & LO & _).
  assert (ML : forall l f, 0 <= f < zlen (bd_name D) -> mem f (bc_faces D l) = (face_name D f =? side_label l)). { intros l f Hf. apply eq_true_iff_eq. rewrite mem_In, (bc_faces_in D), Z.eqb_eq. tauto. }
  assert (MN : forall i k, 0 <= k < nn -> mem k (where_eq (bd_oldname D) i) = (nthZ 0 (bd_oldname D) k =? i)). { intros i k Hk. apply eq_true_iff_eq. rewrite mem_In, In_where, Z.eqb_eq. lia. }
  destruct (foldM_inv (fun done B => progress done B) (fun B l => match lookup (vs_bcs s) l with
    | None => Err AttributeError
    | Some b => match b_type b with
      | BDirichlet => do vf <- get (va_heap v) (b_vface b); do vn <- get (va_heap v) (b_vnode b);
        do pf <- foldM (fun p i => do x <- get vf i; set p i x) (bc_faces D (b_loc b)) (pb_face B);
        do pn <- foldM (fun p i => do x <- get vn i; set p i x) (where_eq (bd_oldname D) (b_index b)) (pb_node B); ret {| pb_node := pn; pb_face := pf |}
      | BNeumann => do pn <- foldM (fun p i => set p i 1%R) (where_eq (bd_oldname D) (b_index b)) (pb_node B); ret {| pb_node := pn; pb_face := pb_face B |}
      | _ => ret B end end) (sides (bd_dim D)) {| pb_node := zeros_like 0%R nn; pb_face := zeros_like 0%R (zlen (bd_name D)) |}) as (B & E & P).
  - split; [apply zlen_zeros_like; lia|]. split; [apply zlen_zeros_like; lia|]. split; [intros ? ? ? []|]. split; [intros f Hf _; apply nthZ_zeros_like; exact Hf|]. split; [intros ? ? ? []|]. intros k Hk _; apply nthZ_zeros_like; exact Hk.
  - intros done l rest B ES P. assert (Hl : In l (sides (bd_dim D))) by (rewrite ES; apply in_or_app; right; left; reflexivity).
    assert (Nl : ~ In l done). { pose proof (locs_NoDup D) as ND. rewrite ES in ND. apply NoDup_remove_2 in ND. intros H; apply ND; apply in_or_app; left; exact H. }
    assert (HD : forall k, In k done -> In k (sides (bd_dim D))) by (intros k Hk; rewrite ES; apply in_or_app; left; exact Hk).
    pose proof (CO l Hl) as HC. apply in_map_iff in HC as ((l' & t) & El & Hin). cbn [fst] in El. subst l'.
    destruct (i_bcs _ _ _ _ I l t Hin) as (b & B1 & B2 & B3 & B4 & B5 & B6 & B7). destruct (j_bcs _ _ _ J l t Hin) as (b' & C1 & C2 & C3). assert (b' = b) by congruence. subst b'. rewrite B1, B2, B3.
    pose proof P as P0. destruct P as (P1 & P2 & P3).
    assert (KEEP : face_exp l t = (fun _ => 0%R) -> node_exp l t = (fun _ => 0%R) -> progress (done ++ [l]) B).
    { intros F1 F2. destruct P3 as (P3 & P4 & P5 & P6). destruct B as [bn bf]. cbn [pb_node pb_face] in *. apply (progress_step done l t {| pb_node := bn; pb_face := bf |} bf bn P0 Hl Nl HD Hin P1); [|exact P2|].
      - intros f Hf. cbn [pb_face]. destruct (Z.eqb_spec (face_name D f) (side_label l)) as [E|_]; [|reflexivity]. rewrite F1. apply (P4 f Hf). intros l' Hl' E'. rewrite E' in E. apply side_label_inj in E; [|apply HD; exact Hl' | exact Hl]. subst l'. contradiction.
      - intros k Hk. cbn [pb_node]. destruct (Z.eqb_spec (nthZ 0 (bd_oldname D) k) (side_label l)) as [E|_]; [|reflexivity]. rewrite F2. apply (P6 k Hk). intros l' Hl' E'. rewrite E' in E. apply side_label_inj in E; [|apply HD; exact Hl' | exact Hl]. subst l'. contradiction. }
    destruct t; try (exists B; split; [reflexivity | apply KEEP; reflexivity]).
    + rewrite (C2 ltac:(discriminate)). destruct (writes_ok (fun _ => 1%R) (where_eq (bd_oldname D) (side_label l)) (pb_node B)) as (r & Er & Lr & Vr). { intros i Hi. apply In_where in Hi. lia. }
      rewrite Er. cbn [bind]. eexists. split; [reflexivity|]. apply (progress_step done l BNeumann B (pb_face B) r P0 Hl Nl HD Hin P1); [|lia|].
      * intros f Hf. destruct (Z.eqb_spec (face_name D f) (side_label l)) as [E|_]; [|reflexivity]. destruct P3 as (_ & P4 & _). apply (P4 f Hf). intros l' Hl' E'. rewrite E' in E. apply side_label_inj in E; [|apply HD; exact Hl' | exact Hl]. subst l'. contradiction.
      * intros k Hk. rewrite Vr by lia. rewrite MN by exact Hk. reflexivity.
    + rewrite (C2 ltac:(discriminate)), (C3 eq_refl). destruct B7 as (B7 & _). rewrite B7. pose proof (shape_zlen D vs bc s I _ SH) as LH.
      rewrite !(get_nthZ []) by (unfold r_vface, r_vnode; lia). cbn [bind]. change r_vface with 5. change r_vnode with 6.
      destruct SH as (SL & SF). assert (LS : zlen (vs_heap s) = 9) by lia.
      assert (V5 : nthZ [] (va_heap v) 5 = nthZ [] (vs_heap s) 5) by (apply (SF 5); [lia | cbn [In]; lia]). assert (V6 : nthZ [] (va_heap v) 6 = nthZ [] (vs_heap s) 6) by (apply (SF 6); [lia | cbn [In]; lia]). rewrite V5, V6.
      destruct (i_frame _ _ _ _ I) as (_ & FR). pose proof (h0_len D) as HL0. rewrite HL0 in FR. destruct (FR 5) as (F5 & _); [lia|]. destruct (FR 6) as (F6 & _); [lia|]. rewrite (len_nf D) in F5. rewrite (len_vn D WF) in F6.
      rewrite (foldM_ext _ (fun p i => set p i (nthZ 0%R (nthZ [] (vs_heap s) 5) i)) (bc_faces D l)) by (intros a i Hi; apply (bc_faces_in D) in Hi; rewrite (get_nthZ 0%R) by lia; reflexivity).
      destruct (writes_ok (fun i => nthZ 0%R (nthZ [] (vs_heap s) 5) i) (bc_faces D l) (pb_face B)) as (q & Eq & Lq & Vq). { intros i Hi. apply (bc_faces_in D) in Hi. lia. }
      rewrite Eq. cbn [bind]. rewrite (foldM_ext _ (fun p i => set p i (nthZ 0%R (nthZ [] (vs_heap s) 6) i)) (where_eq (bd_oldname D) (side_label l))) by (intros a i Hi; apply In_where in Hi; rewrite (get_nthZ 0%R) by lia; reflexivity).
      destruct (writes_ok (fun i => nthZ 0%R (nthZ [] (vs_heap s) 6) i) (where_eq (bd_oldname D) (side_label l)) (pb_node B)) as (r & Er & Lr & Vr). { intros i Hi. apply In_where in Hi. lia. }
      rewrite Er. cbn [bind]. eexists. split; [reflexivity|]. apply (progress_step done l BDirichlet B q r P0 Hl Nl HD Hin); [lia | | lia |].
      * intros f Hf. rewrite Vq by lia. rewrite ML by exact Hf. destruct (Z.eqb_spec (face_name D f) (side_label l)) as [E|_]; [|reflexivity]. apply (i_val _ _ _ _ I f l Hin). apply (bc_faces_in D). split; assumption.
      * intros k Hk. rewrite Vr by lia. rewrite MN by exact Hk. destruct (Z.eqb_spec (nthZ 0 (bd_oldname D) k) (side_label l)) as [E|_]; [|reflexivity]. apply (j_node _ _ _ J k l Hin Hk E).
  - exists B. split; [exact E|]. destruct P as (P1 & P2 & P3 & P4 & P5 & P6). destruct KN as (_ & KN2). split; [exact P1|]. split; [exact P2|]. split; [|split; [exact P4|split; [|exact P6]]].
    + intros l t f Hin. apply (P3 l t f (proj1 (KN2 l t Hin)) Hin).
    + intros l t k Hin. apply (P5 l t k (proj1 (KN2 l t Hin)) Hin).
Qed.
End WithD.
