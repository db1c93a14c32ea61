(** * Proofs_bc3: the values of the halo ghosts. *)
From Verif Require Import Py PyLemmas Model_part Model_label Model_conn Model_geom Spec_geom Model_interp Spec_interp Model_bc Spec_bc Spec_bc3 Proofs_conn1 Proofs_label Proofs_bc Proofs_bc2 Properties_bc.
From Coq Require Import Permutation Lra ZifyBool Sorted.
Open Scope Z_scope.

Section WithD.
Context (D : bcdom) (WF : wf_bcdom D) (HD : hg_distinct D).
Notation arr h := (nthZ [] h 7).

Lemma hg_range i j : hg_pos D i j -> 0 <= g_last (hg_at D i j) < bd_sizehg D /\ 0 <= g_cell (hg_at D i j) < bd_nbhalos D.
Proof.
  intros (Hi & Hj & Hn). destruct (wb_hg D WF i Hi) as (_ & X). destruct (X (hg_at D i j)) as [E|E]; [apply nthZ_In; exact Hj | contradiction | exact E].
Qed.

(** one entry *)
Lemma write_halo_val v i h j h' : 0 <= i < bd_nbnodes D -> 0 <= j < zlen (nthZ [] (bd_hg D) i) -> v <> VOther -> zlen h = 9 -> zlen (arr h) = bd_sizehg D ->
  write_halo D 7 v i h j = Ok h' ->
  zlen h' = 9 /\ zlen (arr h') = bd_sizehg D /\
  (g_last (hg_at D i j) <> -1 -> Some (nthZ 0%R (arr h') (g_last (hg_at D i j))) = eval_val v (hg_face D i j)) /\
  forall p, 0 <= p -> (g_last (hg_at D i j) <> -1 -> g_last (hg_at D i j) <> p) -> nthZ 0%R (arr h') p = nthZ 0%R (arr h) p.
Proof.
  intros Hi Hj Hv Lh L7 E. destruct (wb_len D WF) as (_ & _ & _ & _ & LG & LI). unfold write_halo in E. rewrite (get_nthZ []) in E by lia. cbn [bind] in E.
  rewrite (get_nthZ gpad) in E by exact Hj. cbn [bind] in E. fold (hg_at D i j) in E. set (e := hg_at D i j) in *.
  destruct (g_last e =? -1) eqn:EL. { injection E as <-. split; [exact Lh|]. split; [exact L7|]. split; [lia|]. intros; reflexivity. }
  assert (HP : hg_pos D i j) by (split; [exact Hi|]; split; [exact Hj|]; fold e; lia). destruct (hg_range i j HP) as (B & _). fold e in B.
  destruct (wb_hg D WF i Hi) as (HLI & _).
  assert (EC : exists y, eval_val v (hg_face D i j) = Some y /\ hset h 7 (g_last e) y = Ok h').
  { destruct v as [f|x|]; [|cbn in E; exists x; split; [reflexivity | exact E] | contradiction].
    rewrite (get2_nthZ vzero) in E by lia. cbn [bind] in E. fold (hg_face D i j) in E. cbn in E. eexists. split; [reflexivity | exact E]. }
  destruct EC as (y & Ey & Eh). rewrite hset_ok in Eh by lia. injection Eh as <-. rewrite zlen_upd. rewrite nthZ_upd_eq by lia. rewrite zlen_upd.
  split; [exact Lh|]. split; [exact L7|]. split. { intros _. rewrite nthZ_upd_eq by lia. symmetry. exact Ey. }
  intros p Hp Hn. apply nthZ_upd_neq; [lia | exact Hp | apply Hn; lia].
Qed.
Lemma write_row_val v i : 0 <= i < bd_nbnodes D -> v <> VOther -> forall js h h', NoDup js -> (forall j, In j js -> 0 <= j < zlen (nthZ [] (bd_hg D) i)) ->
  zlen h = 9 -> zlen (arr h) = bd_sizehg D -> foldM (write_halo D 7 v i) js h = Ok h' ->
  zlen h' = 9 /\ zlen (arr h') = bd_sizehg D /\
  (forall j, In j js -> g_last (hg_at D i j) <> -1 -> Some (nthZ 0%R (arr h') (g_last (hg_at D i j))) = eval_val v (hg_face D i j)) /\
  forall p, 0 <= p -> (forall j, In j js -> g_last (hg_at D i j) <> -1 -> g_last (hg_at D i j) <> p) -> nthZ 0%R (arr h') p = nthZ 0%R (arr h) p.
Proof.
  intros Hi Hv. induction js as [|j js IH]; intros h h' ND Hj Lh L7 E. { injection E as <-. split; [exact Lh|]. split; [exact L7|]. split; [intros ? []|]. intros; reflexivity. }
  cbn [foldM] in E. apply bind_ok in E as (h1 & E1 & E2). destruct (write_halo_val v i h j h1 Hi (Hj j (or_introl eq_refl)) Hv Lh L7 E1) as (Lh1 & L71 & V1 & O1). inversion ND as [|? ? N1 N2]; subst.
  destruct (IH h1 h' N2 (fun k Hk => Hj k (or_intror Hk)) Lh1 L71 E2) as (Lh2 & L72 & V2 & O2). split; [exact Lh2|]. split; [exact L72|]. split.
  - intros k [<-|Hk] Hn; [|apply V2; assumption]. rewrite O2; [apply V1; exact Hn | |].
    + assert (HP : hg_pos D i j) by (split; [exact Hi | split; [apply Hj; left; reflexivity | exact Hn]]). destruct (hg_range i j HP) as (B & _). lia.
    + intros k Hk Hnk Ek. assert (HP : hg_pos D i j) by (split; [exact Hi | split; [apply Hj; left; reflexivity | exact Hn]]). assert (HPk : hg_pos D i k) by (split; [exact Hi | split; [apply Hj; right; exact Hk | exact Hnk]]).
      destruct (HD i k i j HPk HP Ek) as (_ & ->). contradiction.
  - intros p Hp Hn. rewrite O2; [|exact Hp | intros k Hk; apply Hn; right; exact Hk]. apply O1; [exact Hp | apply Hn; left; reflexivity].
Qed.
Lemma write_nodes_val v : v <> VOther -> forall is h h', NoDup is -> (forall i, In i is -> 0 <= i < bd_nbnodes D) ->
  zlen h = 9 -> zlen (nthZ [] h 6) = bd_nbnodes D -> zlen (arr h) = bd_sizehg D -> foldM (write_node D 6 7 v) is h = Ok h' ->
  (forall i j, In i is -> hg_pos D i j -> Some (nthZ 0%R (arr h') (g_last (hg_at D i j))) = eval_val v (hg_face D i j)) /\
  forall i j, ~ In i is -> hg_pos D i j -> nthZ 0%R (arr h') (g_last (hg_at D i j)) = nthZ 0%R (arr h) (g_last (hg_at D i j)).
Proof.
  intros Hv. induction is as [|i is IH]; intros h h' ND Hi Lh L6 L7 E. { injection E as <-. split; [intros ? ? []|]. intros; reflexivity. }
  cbn [foldM] in E. apply bind_ok in E as (h2 & E1 & E2). destruct (wb_len D WF) as (_ & _ & _ & LV & LG & LI).
  assert (Hi0 : 0 <= i < bd_nbnodes D) by (apply Hi; left; reflexivity).
  destruct (write_node_ok D WF v 6 7 h i Hi0) as (h2' & E1' & F1); [lia | lia | exact L6 | exact L7|]. rewrite E1 in E1'. injection E1' as <-.
  unfold write_node in E1. rewrite (get_nthZ vzero) in E1 by lia. cbn [bind] in E1. apply bind_ok in E1 as (h1 & E0 & E1). rewrite (get_nthZ []) in E1 by lia. cbn [bind] in E1.
  assert (H1 : zlen h1 = 9 /\ arr h1 = arr h).
  { destruct (eval_val v _) as [y|]; [|injection E0 as <-; split; [exact Lh | reflexivity]]. rewrite hset_ok in E0 by lia. injection E0 as <-. rewrite zlen_upd. split; [exact Lh|]. apply nthZ_upd_neq; lia. }
  destruct H1 as (Lh1 & A1). rewrite <- A1 in L7.
  destruct (write_row_val v i Hi0 Hv _ _ _ (NoDup_range _) (fun j Hj => proj1 (in_range _ _) Hj) Lh1 L7 E1) as (Lh2 & L72 & V1 & O1). inversion ND as [|? ? N1 N2]; subst.
  destruct F1 as (_ & Fr). assert (L62 : zlen (nthZ [] h2 6) = bd_nbnodes D) by (destruct (Fr 6) as (X & _); [lia | congruence]).
  destruct (IH h2 h' N2 (fun k Hk => Hi k (or_intror Hk)) Lh2 L62 L72 E2) as (V2 & O2).
  split.
  - intros k j [<-|Hk] HP; [|apply V2; assumption]. rewrite O2 by assumption. destruct HP as (P1 & P2 & P3). apply V1; [apply in_range; exact P2 | exact P3].
  - intros k j Hk HP. rewrite O2; [| intros X; apply Hk; right; exact X | exact HP]. rewrite O1; [rewrite A1; reflexivity | destruct (hg_range k j HP); lia|].
    intros j' Hj' Hn Ek. apply in_range in Hj'. assert (HP' : hg_pos D i j') by (split; [exact Hi0 | split; assumption]). destruct (HD i j' k j HP' HP Ek) as (-> & _). apply Hk. left. reflexivity.
Qed.

(** the array of prescribed values of the halo ghosts while the dictionary is read *)
Definition hinv (vs : list (loc * bcval)) (done : list (loc * bctype)) (s : vstate) : Prop :=
  forall i j, hg_pos D i j ->
    (forall l, In (l, BDirichlet) done -> nthZ 0 (bd_oldname D) i = side_label l -> nthZ 0%R (arr (vs_heap s)) (g_last (hg_at D i j)) = prescribed_at vs l (hg_face D i j)) /\
    ((forall l, In (l, BDirichlet) done -> nthZ 0 (bd_oldname D) i <> side_label l) -> nthZ 0%R (arr (vs_heap s)) (g_last (hg_at D i j)) = 0%R).
Lemma side_label_inj l l' : In l (sides (bd_dim D)) -> In l' (sides (bd_dim D)) -> side_label l = side_label l' -> l = l'.
Proof. unfold sides. destruct (bd_dim D =? 3); cbn [In]; intros H H'; repeat (destruct H as [<-|H]; [repeat (destruct H' as [<-|H']; [cbn; intros E; reflexivity || discriminate E|]); contradiction|]); contradiction. Qed.
Lemma domain_index l p i : domain_bc D l = Ok (p, i) -> p = false -> i = side_label l.
Proof. unfold domain_bc. destruct l; intros E Ep; subst p; try discriminate E; repeat match goal with H : context [if ?b then _ else _] |- _ => destruct b end; try discriminate E; injection E as <-; reflexivity. Qed.
Lemma hinit vs : hinv vs [] (init_state D).
Proof. intros i j HP. split; [intros ? []|]. intros _. destruct (hg_range i j HP) as (B & _). change (nthZ 0%R (zeros_like 0%R (bd_sizehg D)) (g_last (hg_at D i j)) = 0%R). apply nthZ_zeros_like. exact B. Qed.

Lemma hstep vs done s l t s' : inv D vs done s -> hinv vs done s -> ~ In l (map fst done) -> In l (sides (bd_dim D)) -> (forall k u, In (k, u) done -> In k (sides (bd_dim D))) ->
  (t = BDirichlet -> forall e, In e done -> neu_like (snd e) = false) ->
  bc_entry D (Some vs) s (l, t) = Ok s' -> hinv vs (done ++ [(l, t)]) s'.
Proof.
  intros I HI Hl HL HDone HDir E. unfold bc_entry in E. apply bind_ok in E as ((p, idx) & Ep & E).
  assert (SAME : t <> BDirichlet -> vs_heap s' = vs_heap s -> hinv vs (done ++ [(l, t)]) s').
  { intros Ht Eh i j HP. rewrite Eh. destruct (HI i j HP) as (A & B). split.
    - intros k Hk. apply in_app_or in Hk. destruct Hk as [Hk|[Hk|[]]]; [apply A; exact Hk|]. injection Hk as _ Hk. contradiction.
    - intros Hk. apply B. intros k Hk'. apply Hk. apply in_or_app. left. exact Hk'. }
  destruct (p && _) eqn:C1; [discriminate E|]. destruct (negb p && _) eqn:C2; [discriminate E|].
  destruct t; cbn [new_boundary bind] in E.
  - injection E as <-. apply SAME; [discriminate | reflexivity].
  - destruct (lookup vs l) as [v|] eqn:EV; [|discriminate E]. apply bind_ok in E as (h' & EW & E). injection E as <-.
    destruct (i_names _ _ _ _ I (HDir eq_refl)) as (V1 & V2 & V3). rewrite V1, V2, V3 in EW. destruct (i_frame _ _ _ _ I) as (FL & FR). rewrite h0_len in FR, FL.
    destruct (FR 5) as (F5 & _); [lia|]. destruct (FR 6) as (F6 & _); [lia|]. destruct (FR 7) as (F7 & _); [lia|]. rewrite len_nf in F5 by exact WF. rewrite len_vn in F6 by exact WF. rewrite len_vh in F7 by exact WF.
    assert (Hp : p = false) by (destruct p; [discriminate C1 | reflexivity]). pose proof (domain_index l p idx Ep Hp) as Hidx.
    assert (VO : v = VOther \/ v <> VOther) by (destruct v; [right | right | left]; congruence).
    intros i j HP. cbn [vs_heap]. destruct (HI i j HP) as (A & B).
    destruct VO as [->|VO].
    + injection EW as <-. split.
      * intros k Hk Ek. apply in_app_or in Hk. destruct Hk as [Hk|[Hk|[]]]; [apply A; assumption|]. injection Hk as <-. unfold prescribed_at. rewrite EV. apply B. intros k Hk Ek'.
        rewrite Ek in Ek'. apply side_label_inj in Ek'; [|exact HL | exact (HDone _ _ Hk)]. subst k. apply Hl. apply in_map_iff. exists (l, BDirichlet). split; [reflexivity | exact Hk].
      * intros Hk. apply B. intros k Hk'. apply Hk. apply in_or_app. left. exact Hk'.
    + assert (EW' : (do h <- foldM (fun h i => do x <- get (bd_fcenter D) i; match eval_val v x with Some y => hset h r_vface i y | None => ret h end) (bc_faces D l) (vs_heap s);
        foldM (write_node D r_vnode r_vhalo v) (where_eq (bd_oldname D) idx) h) = Ok h') by (destruct v; [exact EW | exact EW | contradiction]).
      destruct (write_faces_ok D WF l v r_vface (vs_heap s)) as (h1 & E1 & F1 & _); [unfold r_vface; lia | exact F5|]. rewrite E1 in EW'. cbn [bind] in EW'. destruct F1 as (G1 & G2).
      destruct (G2 6) as (G6 & _); [lia|]. destruct (G2 7) as (G7 & G7'); [lia|]. specialize (G7' ltac:(cbn [In]; unfold r_vface; lia)).
      destruct (wb_len D WF) as (_ & _ & LO & _).
      destruct (write_nodes_val v VO (where_eq (bd_oldname D) idx) h1 h') as (W1 & W2); [apply NoDup_filter, NoDup_range | intros k Hk; apply In_where in Hk; lia | lia | lia | lia | exact EW' |].
      assert (IW : In i (where_eq (bd_oldname D) idx) <-> nthZ 0 (bd_oldname D) i = side_label l). { rewrite In_where, Hidx. destruct HP as (P1 & _). split; [tauto | split; [lia | assumption]]. }
      assert (PA : forall x, eval_val v x = Some (prescribed_at vs l x)) by (intros x; unfold prescribed_at; rewrite EV; destruct v; [reflexivity | reflexivity | contradiction]).
      split.
      * intros k Hk Ek. apply in_app_or in Hk. destruct Hk as [Hk|[Hk|[]]].
        -- rewrite W2; [rewrite G7'; apply A; assumption | | exact HP]. intros X. apply IW in X. rewrite X in Ek. apply side_label_inj in Ek; [|exact HL | exact (HDone _ _ Hk)]. subst k. apply Hl. apply in_map_iff. exists (l, BDirichlet). split; [reflexivity | exact Hk].
        -- injection Hk as <-. specialize (W1 i j (proj2 IW Ek) HP). rewrite PA in W1. injection W1 as W1. exact W1.
      * intros Hk. rewrite W2; [rewrite G7'; apply B | | exact HP]. { intros k Hk'. apply Hk. apply in_or_app. left. exact Hk'. } intros X. apply IW in X. exact (Hk l ltac:(apply in_or_app; right; left; reflexivity) X).
  - injection E as <-. apply SAME; [discriminate | reflexivity].
  - discriminate E.
  - injection E as <-. apply SAME; [discriminate | reflexivity].
  - injection E as <-. apply SAME; [discriminate | reflexivity].
Qed.
Lemma hloop vs rest : forall done s s', inv D vs done s -> hinv vs done s -> NoDup (map fst (done ++ rest)) -> (forall l t, In (l, t) (done ++ rest) -> In l (sides (bd_dim D)) /\ t <> BSlip /\ t <> BOther) -> dirichlet_first (done ++ rest) ->
  foldM (bc_entry D (Some vs)) rest s = Ok s' -> inv D vs (done ++ rest) s' /\ hinv vs (done ++ rest) s'.
Proof.
  induction rest as [|(l, t) rest IH]; intros done s s' I HI ND HK DF E. { injection E as <-. rewrite app_nil_r. split; assumption. }
  cbn [foldM] in E. apply bind_ok in E as (s1 & E1 & E2). destruct (HK l t) as (K1 & K2 & K3); [apply in_or_app; right; left; reflexivity|].
  assert (HDir : t = BDirichlet -> forall e, In e done -> neu_like (snd e) = false) by (intros ->; exact (dirichlet_first_app done l rest DF)).
  assert (Hl : ~ In l (map fst done)). { rewrite map_app in ND. cbn [map fst] in ND. apply NoDup_remove_2 in ND. intros H; apply ND; apply in_or_app; left; exact H. }
  assert (HI' : hinv vs (done ++ [(l, t)]) s1). { apply (hstep vs done s l t s1 I HI Hl K1); [|exact HDir | exact E1]. intros k u Hk. apply (HK k u). apply in_or_app. left. exact Hk. }
  pose proof (entry_step D WF vs done s l t I Hl K1 K2 K3 HDir) as HS. destruct (good D vs (l, t)); [|rewrite HS in E1; discriminate E1]. destruct HS as (s1' & E1' & I'). rewrite E1 in E1'. injection E1' as <-.
  replace (done ++ (l, t) :: rest) with ((done ++ [(l, t)]) ++ rest) in * by (rewrite <- app_assoc; reflexivity). apply (IH _ s1); assumption.
Qed.

(** the labels the boundaries carry *)
Definition xinv (done : list (loc * bctype)) (s : vstate) : Prop :=
  forall l t b, In (l, t) done -> t = BNeumann \/ t = BDirichlet \/ t = BNonslip -> lookup (vs_bcs s) l = Some b -> b_index b = side_label l.
Lemma xstep vs done s l t s' : xinv done s -> ~ In l (map fst done) -> bc_entry D (Some vs) s (l, t) = Ok s' -> xinv (done ++ [(l, t)]) s'.
Proof.
  intros X Hl E. unfold bc_entry in E. apply bind_ok in E as ((p, idx) & Ep & E).
  destruct (p && _) eqn:C1; [discriminate E|]. destruct (negb p && _) eqn:C2; [discriminate E|].
  assert (KEEP : forall b, vs_bcs s' = put (vs_bcs s) l b -> (t = BNeumann \/ t = BDirichlet \/ t = BNonslip -> b_index b = side_label l) -> xinv (done ++ [(l, t)]) s').
  { intros b EB HB k u c Hk Hu Ek. rewrite EB, lookup_put in Ek. apply in_app_or in Hk. destruct Hk as [Hk|[Hk|[]]].
    - rewrite loc_eqb_neq in Ek; [exact (X k u c Hk Hu Ek)|]. intros ->. apply Hl. apply in_map_iff. exists (k, u). split; [reflexivity | exact Hk].
    - injection Hk as <- <-. rewrite (proj2 (loc_eqb_eq l l) eq_refl) in Ek. injection Ek as <-. exact (HB Hu). }
  assert (PF : t <> BPeriodic -> p = false) by (intros Ht; destruct p; [|reflexivity]; destruct t; try discriminate C1; contradiction).
  destruct t; cbn [new_boundary bind] in E.
  - injection E as <-. eapply KEEP; [reflexivity|]. intros _. exact (domain_index l p idx Ep (PF ltac:(discriminate))).
  - destruct (lookup vs l) as [v|]; [|discriminate E]. apply bind_ok in E as (h' & _ & E). injection E as <-. eapply KEEP; [reflexivity|]. intros _. exact (domain_index l p idx Ep (PF ltac:(discriminate))).
  - injection E as <-. eapply KEEP; [reflexivity|]. intros [Q|[Q|Q]]; discriminate Q.
  - discriminate E.
  - injection E as <-. eapply KEEP; [reflexivity|]. intros _. exact (domain_index l p idx Ep (PF ltac:(discriminate))).
  - injection E as <-. intros k u c Hk Hu Ek. apply in_app_or in Hk. destruct Hk as [Hk|[Hk|[]]]; [exact (X k u c Hk Hu Ek)|]. injection Hk as _ <-. destruct Hu as [Q|[Q|Q]]; discriminate Q.
Qed.
Lemma xloop vs rest : forall done s s', xinv done s -> NoDup (map fst (done ++ rest)) -> foldM (bc_entry D (Some vs)) rest s = Ok s' -> xinv (done ++ rest) s'.
Proof.
  induction rest as [|(l, t) rest IH]; intros done s s' X ND E. { injection E as <-. rewrite app_nil_r. exact X. }
  cbn [foldM] in E. apply bind_ok in E as (s1 & E1 & E2).
  assert (Hl : ~ In l (map fst done)). { rewrite map_app in ND. cbn [map fst] in ND. apply NoDup_remove_2 in ND. intros H; apply ND; apply in_or_app; left; exact H. }
  pose proof (xstep vs done s l t s1 X Hl E1) as X1. replace (done ++ (l, t) :: rest) with ((done ++ [(l, t)]) ++ rest) in * by (rewrite <- app_assoc; reflexivity). apply (IH _ s1); assumption.
Qed.

(** ** update *)
Section Built.
Context (vs : list (loc * bcval)) (bc : list (loc * bctype)) (s : vstate).
Hypothesis I : inv D vs bc s.
Hypothesis HI : hinv vs bc s.
Hypothesis IX : xinv bc s.
Hypothesis NS : nonslip_readable D bc.

Definition hval (h : heap) (t : bctype) (e : gentry) : R := match t with BNeumann => nthZ 0%R (nthZ [] h 2) (g_cell e) | _ => nthZ 0%R (arr h) (g_last e) end.
Lemma update_one_halo l t b h h' : In (l, t) bc -> t = BNeumann \/ t = BDirichlet -> lookup (vs_bcs s) l = Some b -> shape s h -> update_one D h b = Ok h' ->
  (forall i j, In i (bd_halonodes D) -> hg_pos D i j -> g_name (hg_at D i j) = side_label l -> nthZ 0%R (nthZ [] h' 4) (g_last (hg_at D i j)) = hval h t (hg_at D i j)) /\
  (forall i j, In i (bd_halonodes D) -> hg_pos D i j -> g_name (hg_at D i j) <> side_label l -> nthZ 0%R (nthZ [] h' 4) (g_last (hg_at D i j)) = nthZ 0%R (nthZ [] h 4) (g_last (hg_at D i j))).
Proof.
  intros Hin Ht EL SH E. destruct (i_bcs _ _ _ _ I l t Hin) as (b' & E' & B1 & B2 & B3 & B4 & B6 & B5). rewrite EL in E'. injection E' as <-. pose proof (IX l t b Hin ltac:(tauto) EL) as BI.
  pose proof (shape_zlen D vs bc s I h SH) as LZ. destruct (wb_size D WF) as (S1 & S2 & S3 & S4). destruct (wb_len D WF) as (_ & _ & _ & _ & L5 & _).
  assert (Z2 : zlen (nthZ [] h 2) = bd_nbhalos D) by (rewrite (shape_len D vs bc s I h 2 SH) by lia; change (zlen (zeros_like 0%R (bd_nbhalos D)) = bd_nbhalos D); apply zlen_zeros_like; lia).
  assert (Z4 : zlen (nthZ [] h 4) = bd_sizehg D) by (rewrite (shape_len D vs bc s I h 4 SH) by lia; change (zlen (zeros_like 0%R (bd_sizehg D)) = bd_sizehg D); apply zlen_zeros_like; lia).
  assert (Z7 : zlen (nthZ [] h 7) = bd_sizehg D) by (rewrite (shape_len D vs bc s I h 7 SH) by lia; exact (len_vh D WF)).
  assert (HHN : forall i, In i (bd_halonodes D) -> 0 <= i < zlen (bd_hg D)) by (intros i Hi; rewrite L5; exact (wb_halonodes D WF i Hi)).
  assert (POS : forall e, In e (flat_map (nthZ [] (bd_hg D)) (bd_halonodes D)) -> g_last e <> -1 -> exists i j, In i (bd_halonodes D) /\ hg_pos D i j /\ e = hg_at D i j).
  { intros e He Hn. apply in_flat_map in He as (i & Hi & He). destruct (In_nthZ gpad _ _ He) as (j & Hj & Ej). exists i, j. split; [exact Hi|]. split; [|symmetry; exact Ej]. split; [exact (wb_halonodes D WF i Hi)|]. split; [exact Hj|]. unfold hg_at. rewrite Ej. exact Hn. }
  assert (ENT : forall i j, In i (bd_halonodes D) -> hg_pos D i j -> In (hg_at D i j) (flat_map (nthZ [] (bd_hg D)) (bd_halonodes D))).
  { intros i j Hi (P1 & P2 & _). apply in_flat_map. exists i. split; [exact Hi | apply nthZ_In; exact P2]. }
  assert (FIN : forall f (g g' hg : list R), zlen hg = bd_sizehg D -> (forall e, In e (flat_map (nthZ [] (bd_hg D)) (bd_halonodes D)) -> g_last e <> -1 -> f e = Ok (hval h t e)) ->
     haloghost_loop f (bd_hg D) (b_index b) (bd_halonodes D) (nthZ [] h 4) = Ok hg -> (do h <- set h r_ghost g; set h r_haloghost hg) = Ok h' ->
     (forall i j, In i (bd_halonodes D) -> hg_pos D i j -> g_name (hg_at D i j) = side_label l -> nthZ 0%R (nthZ [] h' 4) (g_last (hg_at D i j)) = hval h t (hg_at D i j)) /\
     (forall i j, In i (bd_halonodes D) -> hg_pos D i j -> g_name (hg_at D i j) <> side_label l -> nthZ 0%R (nthZ [] h' 4) (g_last (hg_at D i j)) = nthZ 0%R (nthZ [] h 4) (g_last (hg_at D i j)))).
  { intros f g g' hg Lhg Hf Ehg Eh. rewrite set_upd in Eh by (unfold r_ghost; lia). cbn [bind] in Eh. rewrite set_upd in Eh by (rewrite zlen_upd; unfold r_haloghost; lia). injection Eh as <-. rewrite nthZ_upd_eq by (rewrite zlen_upd; unfold r_haloghost; lia).
    rewrite BI in Ehg. rewrite loop_entries in Ehg by exact HHN.
    destruct (entries_writes f (hval h t) (side_label l) (flat_map (nthZ [] (bd_hg D)) (bd_halonodes D)) (nthZ [] h 4)) as (w' & Ew & Lw & Vw & Ow).
    - intros e He Hn _. destruct (POS e He Hn) as (i & j & Hi & HP & ->). destruct (hg_range i j HP) as (R1 & _). split; [lia|]. apply Hf; assumption.
    - intros e e' He He' El Hn _ _. destruct (POS e He Hn) as (i & j & Hi & HP & ->). destruct (POS e' He' ltac:(congruence)) as (i' & j' & Hi' & HP' & ->). destruct (HD i j i' j' HP HP' El) as (-> & ->). reflexivity.
    - rewrite Ehg in Ew. injection Ew as <-. split.
      + intros i j Hi HP Hname. apply Vw; [apply ENT; assumption | apply HP | exact Hname].
      + intros i j Hi HP Hname. apply Ow; [destruct (hg_range i j HP); lia|]. intros e He Hn Hne El. destruct (POS e He Hn) as (i' & j' & Hi' & HP' & ->). destruct (HD i' j' i j HP' HP El) as (-> & ->). contradiction. }
  assert (HR : forall e, In e (flat_map (nthZ [] (bd_hg D)) (bd_halonodes D)) -> g_last e <> -1 -> 0 <= g_last e < bd_sizehg D /\ 0 <= g_cell e < bd_nbhalos D).
  { intros e He Hn. destruct (POS e He Hn) as (i & j & Hi & HP & ->). apply hg_range; exact HP. }
  unfold update_one in E. rewrite B1, B2 in E. rewrite (get_nthZ [] h r_ghost) in E by (unfold r_ghost; lia). rewrite (get_nthZ [] h r_haloghost) in E by (unfold r_haloghost; lia).
  destruct Ht as [-> | ->]; cbn [bref] in B5; destruct B5 as (BV & BH); rewrite BV, BH in E.
  - rewrite (get_nthZ [] h r_cell), (get_nthZ [] h r_halo) in E by (unfold r_cell, r_halo; lia). cbn [bind] in E. apply bind_ok in E as ((g, hg) & E0 & E). cbn [fst snd] in E. apply bind_ok in E0 as (g1 & _ & E0). apply bind_ok in E0 as (hg1 & Ehg & E0). injection E0 as -> ->.
    apply (FIN _ g g hg) in Ehg; [exact Ehg | | | exact E].
    + unfold haloghost_value_neumann, r_halo, r_haloghost in Ehg. destruct (haloghost_loop_ok D (fun e => get (nthZ [] h 2) (g_cell e)) (bd_halonodes D) (nthZ [] h 4) _ Z4 HHN (b_index b)) as (hg' & Ehg' & Lhg).
      { intros i e Hi He Hn _. destruct (HR e) as (X1 & X2); [apply in_flat_map; exists i; split; assumption | exact Hn|]. split; [exact X1|]. exists (nthZ 0%R (nthZ [] h 2) (g_cell e)). apply get_nthZ. lia. }
      rewrite Ehg in Ehg'. injection Ehg' as <-. exact Lhg.
    + intros e He Hn. destruct (HR e He Hn) as (_ & X). unfold r_halo. rewrite (get_nthZ 0%R) by lia. reflexivity.
  - rewrite (get_nthZ [] h r_vface), (get_nthZ [] h r_vhalo) in E by (unfold r_vface, r_vhalo; lia). cbn [bind] in E. apply bind_ok in E as ((g, hg) & E0 & E). cbn [fst snd] in E. apply bind_ok in E0 as (g1 & _ & E0). apply bind_ok in E0 as (hg1 & Ehg & E0). injection E0 as -> ->.
    apply (FIN _ g g hg) in Ehg; [exact Ehg | | | exact E].
    + unfold haloghost_value_dirichlet, r_vhalo, r_haloghost in Ehg. destruct (haloghost_loop_ok D (fun e => get (nthZ [] h 7) (g_last e)) (bd_halonodes D) (nthZ [] h 4) _ Z4 HHN (b_index b)) as (hg' & Ehg' & Lhg).
      { intros i e Hi He Hn _. destruct (HR e) as (X1 & X2); [apply in_flat_map; exists i; split; assumption | exact Hn|]. split; [exact X1|]. exists (nthZ 0%R (nthZ [] h 7) (g_last e)). apply get_nthZ. lia. }
      rewrite Ehg in Ehg'. injection Ehg' as <-. exact Lhg.
    + intros e He Hn. destruct (HR e He Hn) as (X & _). unfold r_vhalo. rewrite (get_nthZ 0%R) by lia. reflexivity.
Qed.
Lemma update_one_periodic l b h h' : In (l, BPeriodic) bc -> lookup (vs_bcs s) l = Some b -> shape s h -> update_one D h b = Ok h' -> nthZ [] h' 4 = nthZ [] h 4.
Proof.
  intros Hin EL SH E. destruct (i_bcs _ _ _ _ I l BPeriodic Hin) as (b' & E' & B1 & B2 & B3 & B4 & B6 & B5). rewrite EL in E'. injection E' as <-.
  pose proof (shape_zlen D vs bc s I h SH) as LZ. destruct (wb_len D WF) as (_ & _ & _ & _ & L5 & _). cbn [bref] in B5. destruct B5 as (BV & BH).
  assert (HHN : forall i, In i (bd_halonodes D) -> 0 <= i < zlen (bd_hg D)) by (intros i Hi; rewrite L5; exact (wb_halonodes D WF i Hi)).
  unfold update_one in E. rewrite B1, B2 in E. rewrite (get_nthZ [] h r_ghost) in E by (unfold r_ghost; lia). rewrite (get_nthZ [] h r_haloghost) in E by (unfold r_haloghost; lia).
  rewrite (get_nthZ [] h (b_vface b)), (get_nthZ [] h (b_vhalo b)) in E by lia. cbn [bind] in E. pose proof (proj2 B4 eq_refl) as PER. rewrite (periodic_no_faces D WF l B3 PER) in E. unfold ghost_value_neumann in E. cbn [foldM bind] in E.
  unfold haloghost_value_neumann in E. rewrite haloghost_loop_none in E; [|exact HHN | intros i e Hi He Hn; rewrite (B6 eq_refl); exact (wb_hgperiodic D WF l i e B3 PER Hi He Hn)]. cbn [bind fst snd] in E.
  rewrite set_upd in E by (unfold r_ghost; lia). cbn [bind] in E. rewrite set_upd in E by (rewrite zlen_upd; unfold r_haloghost; lia). injection E as <-. rewrite nthZ_upd_eq by (rewrite zlen_upd; unfold r_haloghost; lia). reflexivity.
Qed.

Lemma update_one_nonslip l b h h' : In (l, BNonslip) bc -> lookup (vs_bcs s) l = Some b -> shape s h -> update_one D h b = Ok h' ->
  forall i j, In i (bd_halonodes D) -> hg_pos D i j -> g_name (hg_at D i j) <> side_label l -> nthZ 0%R (nthZ [] h' 4) (g_last (hg_at D i j)) = nthZ 0%R (nthZ [] h 4) (g_last (hg_at D i j)).
Proof.
  intros Hin EL SH E i j Hi HP Hname. destruct (i_bcs _ _ _ _ I l BNonslip Hin) as (b' & E' & B1 & B2 & B3 & B4 & B6 & B5). rewrite EL in E'. injection E' as <-. pose proof (IX l BNonslip b Hin ltac:(tauto) EL) as BI.
  pose proof (shape_zlen D vs bc s I h SH) as LZ. destruct (wb_size D WF) as (S1 & S2 & S3 & S4). destruct (wb_len D WF) as (_ & _ & _ & _ & L5 & _). cbn [bref] in B5. destruct B5 as (BV & BH).
  assert (Z2 : zlen (nthZ [] h 2) = bd_nbhalos D) by (rewrite (shape_len D vs bc s I h 2 SH) by lia; change (zlen (zeros_like 0%R (bd_nbhalos D)) = bd_nbhalos D); apply zlen_zeros_like; lia).
  assert (Z4 : zlen (nthZ [] h 4) = bd_sizehg D) by (rewrite (shape_len D vs bc s I h 4 SH) by lia; change (zlen (zeros_like 0%R (bd_sizehg D)) = bd_sizehg D); apply zlen_zeros_like; lia).
  assert (HHN : forall i, In i (bd_halonodes D) -> 0 <= i < zlen (bd_hg D)) by (intros i' Hi'; rewrite L5; exact (wb_halonodes D WF i' Hi')).
  assert (POS : forall e, In e (flat_map (nthZ [] (bd_hg D)) (bd_halonodes D)) -> g_last e <> -1 -> exists i j, In i (bd_halonodes D) /\ hg_pos D i j /\ e = hg_at D i j /\ In e (nthZ [] (bd_hg D) i)).
  { intros e He Hn. apply in_flat_map in He as (i' & Hi' & He). destruct (In_nthZ gpad _ _ He) as (j' & Hj & Ej). exists i', j'. split; [exact Hi'|]. split; [|split; [symmetry; exact Ej | exact He]]. split; [exact (wb_halonodes D WF i' Hi')|]. split; [exact Hj|]. unfold hg_at. rewrite Ej. exact Hn. }
  unfold update_one in E. rewrite B1, B2 in E. rewrite (get_nthZ [] h r_ghost) in E by (unfold r_ghost; lia). rewrite (get_nthZ [] h r_haloghost) in E by (unfold r_haloghost; lia). rewrite BV, BH in E.
  rewrite (get_nthZ [] h r_cell), (get_nthZ [] h r_halo) in E by (unfold r_cell, r_halo; lia). cbn [bind] in E. apply bind_ok in E as ((g, hg) & E0 & E). cbn [fst snd] in E. apply bind_ok in E0 as (g1 & _ & E0). apply bind_ok in E0 as (hg1 & Ehg & E0). injection E0 as -> ->.
  rewrite set_upd in E by (unfold r_ghost; lia). cbn [bind] in E. rewrite set_upd in E by (rewrite zlen_upd; unfold r_haloghost; lia). injection E as <-. rewrite nthZ_upd_eq by (rewrite zlen_upd; unfold r_haloghost; lia).
  unfold haloghost_value_nonslip, r_halo, r_haloghost in Ehg. rewrite BI in Ehg. rewrite loop_entries in Ehg by exact HHN.
  destruct (entries_writes (fun e => do v <- get (nthZ [] h 2) (g_last e); ret (-1 * v)%R) (fun e => (-1 * nthZ 0%R (nthZ [] h 2) (g_last e))%R) (side_label l) (flat_map (nthZ [] (bd_hg D)) (bd_halonodes D)) (nthZ [] h 4)) as (w' & Ew & Lw & Vw & Ow).
  - intros e He Hn _. destruct (POS e He Hn) as (i' & j' & Hi' & HP' & -> & HI'). destruct (hg_range i' j' HP') as (R1 & _). pose proof (NS l i' _ Hin Hi' HI' Hn). split; [lia|]. rewrite (get_nthZ 0%R) by lia. reflexivity.
  - intros e e' He He' El Hn _ _. destruct (POS e He Hn) as (i1 & j1 & Hi1 & HP1 & -> & _). destruct (POS e' He' ltac:(congruence)) as (i2 & j2 & Hi2 & HP2 & -> & _). destruct (HD i1 j1 i2 j2 HP1 HP2 El) as (-> & ->). reflexivity.
  - rewrite Ehg in Ew. injection Ew as <-. apply Ow; [destruct (hg_range i j HP); lia|]. intros e He Hn Hne El. destruct (POS e He Hn) as (i' & j' & Hi' & HP' & -> & _). destruct (HD i' j' i j HP' HP El) as (-> & ->). contradiction.
Qed.

Lemma hval_frame t e h h' : zlen h = 9 -> frame [3; 4] h h' -> hval h' t e = hval h t e.
Proof.
  intros L (_ & Fr). unfold hval. destruct t; try (destruct (Fr 7) as (_ & X); [lia|]; rewrite X by (cbn [In]; lia); reflexivity). destruct (Fr 2) as (_ & X); [lia|]. rewrite X by (cbn [In]; lia). reflexivity.
Qed.

Lemma bc_unique l t t' : NoDup (map fst bc) -> In (l, t) bc -> In (l, t') bc -> t = t'.
Proof.
  clear. induction bc as [|(k, u) r IHr]; intros ND Hin Hin'; [destruct Hin|]. cbn [map fst] in ND. inversion ND as [|? ? M1 M2]; subst. destruct Hin as [Hin|Hin], Hin' as [Hin'|Hin'].
  - congruence.
  - injection Hin as -> ->. exfalso; apply M1. apply in_map_iff. exists (l, t'). split; [reflexivity | exact Hin'].
  - injection Hin' as -> ->. exfalso; apply M1. apply in_map_iff. exists (l, t). split; [reflexivity | exact Hin].
  - apply IHr; assumption.
Qed.

Lemma update_loop_halo ls : NoDup (map fst bc) -> (forall l, In l ls -> exists t, In (l, t) bc /\ t <> BSlip /\ t <> BOther) -> NoDup ls -> forall h h', shape s h ->
  foldM (fun h l => match lookup (vs_bcs s) l with None => Err AttributeError | Some b => update_one D h b end) ls h = Ok h' ->
  forall i j, In i (bd_halonodes D) -> hg_pos D i j -> forall l t, In (l, t) bc -> t = BNeumann \/ t = BDirichlet -> g_name (hg_at D i j) = side_label l ->
  (In l ls -> nthZ 0%R (nthZ [] h' 4) (g_last (hg_at D i j)) = hval h t (hg_at D i j)) /\
  (~ In l ls -> nthZ 0%R (nthZ [] h' 4) (g_last (hg_at D i j)) = nthZ 0%R (nthZ [] h 4) (g_last (hg_at D i j))).
Proof.
  intros NDb HB. induction ls as [|k ls IH]; intros NDl h h' SH E i j Hi HP l t Hin Ht En.
  { injection E as <-. split; [intros []|]. reflexivity. }
  destruct (HB k (or_introl eq_refl)) as (u & Hku & T1 & T2). destruct (i_bcs _ _ _ _ I k u Hku) as (b & EL & _ & _ & KS & _). cbn [foldM] in E. rewrite EL in E. apply bind_ok in E as (h1 & E1 & E2).
  destruct (i_bcs _ _ _ _ I l t Hin) as (_ & _ & _ & _ & LS & _).
  destruct (update_one_ok D WF vs bc s I NS k u b h Hku T1 T2 EL SH) as (h1' & E1' & F1 & _). rewrite E1 in E1'. injection E1' as <-. inversion NDl as [|? ? N1 N2]; subst.
  destruct (IH (fun q Hq => HB q (or_intror Hq)) N2 h1 h' (shape_frame D s h h1 SH F1) E2 i j Hi HP l t Hin Ht En) as (A & B).
  pose proof (shape_zlen D vs bc s I h SH) as LZ. rewrite (hval_frame t (hg_at D i j) h h1 LZ F1) in A.
  assert (STEP : (k = l -> nthZ 0%R (nthZ [] h1 4) (g_last (hg_at D i j)) = hval h t (hg_at D i j)) /\ (k <> l -> nthZ 0%R (nthZ [] h1 4) (g_last (hg_at D i j)) = nthZ 0%R (nthZ [] h 4) (g_last (hg_at D i j)))).
  { destruct (loc_dec k l) as [->|NE].
    - split; [intros _ | contradiction]. rewrite (bc_unique l u t NDb Hku Hin) in *. destruct (update_one_halo l t b h h1 Hin Ht EL SH E1) as (V & _). exact (V i j Hi HP En).
    - split; [contradiction | intros _]. assert (NN : g_name (hg_at D i j) <> side_label k) by (rewrite En; intros X; apply NE; symmetry; apply (side_label_inj l k LS KS X)).
      destruct u; try contradiction.
      + destruct (update_one_halo k BNeumann b h h1 Hku (or_introl eq_refl) EL SH E1) as (_ & V). exact (V i j Hi HP NN).
      + destruct (update_one_halo k BDirichlet b h h1 Hku (or_intror eq_refl) EL SH E1) as (_ & V). exact (V i j Hi HP NN).
      + rewrite (update_one_periodic k b h h1 Hku EL SH E1). reflexivity.
      + exact (update_one_nonslip k b h h1 Hku EL SH E1 i j Hi HP NN). }
  destruct STEP as (S1 & S2). split.
  - intros [<-|HL]; [|exact (A HL)]. rewrite (B N1). exact (S1 eq_refl).
  - intros HL. rewrite B by (intros X; apply HL; right; exact X). apply S2. intros ->. apply HL. left. reflexivity.
Qed.

Hypothesis KN : bc_known D bc.
Hypothesis CO : bc_complete D bc.
Lemma update_halo v v' : va_bcs v = vs_bcs s -> shape s (va_heap v) -> update_ghost_value D v = Ok v' -> haloghosts_updated D bc vs (nthZ [] (va_heap v) 2) (nthZ [] (va_heap v') 4).
Proof.
  intros U2 SH E. unfold update_ghost_value in E. rewrite U2 in E. apply bind_ok in E as (h' & E & Ev). injection Ev as <-. cbn [va_heap]. change (locs (bd_dim D)) with (sides (bd_dim D)) in E.
  destruct (wb_size D WF) as (S1 & S2 & S3 & S4).
  assert (HB : forall l, In l (sides (bd_dim D)) -> exists t, In (l, t) bc /\ t <> BSlip /\ t <> BOther).
  { intros l Hl. specialize (CO l Hl). apply in_map_iff in CO. destruct CO as ((k, t) & Ek & Hin). cbn [fst] in Ek. subst k. exists t. split; [exact Hin|]. destruct KN as (_ & K). destruct (K l t Hin) as (_ & K1 & K2). split; assumption. }
  destruct (update_loop D WF vs bc s I NS (sides (bd_dim D)) HB (locs_NoDup D) (va_heap v) SH) as (h1 & E1 & F1 & _). rewrite E in E1. injection E1 as <-.
  pose proof (shape_zlen D vs bc s I (va_heap v) SH) as LZ. split.
  { rewrite (shape_len D vs bc s I h' 4 (shape_frame D s _ _ SH F1)) by lia. change (zlen (zeros_like 0%R (bd_sizehg D)) = bd_sizehg D). apply zlen_zeros_like; lia. }
  intros i j l Hi HP En. pose proof (update_loop_halo (sides (bd_dim D)) (proj1 KN) HB (locs_NoDup D) (va_heap v) h' SH E i j Hi HP l) as U. split.
  - intros Hin. destruct (U BNeumann Hin (or_introl eq_refl) En) as (V & _). exact (V (proj1 (proj2 KN l _ Hin))).
  - intros Hin. destruct (U BDirichlet Hin (or_intror eq_refl) En) as (V & _). specialize (V (proj1 (proj2 KN l _ Hin))). cbn [hval] in V. destruct SH as (_ & Fr). destruct (Fr 7) as (_ & X); [destruct (i_frame _ _ _ _ I) as (FL & _); rewrite h0_len in FL; lia|]. rewrite X in V by (cbn [In]; lia).
    destruct (HI i j HP) as (A & B). split.
    + intros l' Hl' El'. rewrite V. exact (A l' Hl' El').
    + intros Hn. rewrite V. exact (B Hn).
Qed.
End Built.
End WithD.
