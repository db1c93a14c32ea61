(** * Proofs_bc2: the loop over the BC dictionary and the update of the ghosts. *)
From Verif Require Import Py PyLemmas Model_part Model_label Model_conn Model_geom Spec_geom Model_interp Spec_interp Model_bc Spec_bc Proofs_conn1 Proofs_label Proofs_bc.
From Coq Require Import Permutation Lra ZifyBool Sorted.
Open Scope Z_scope.

Lemma loc_dec (a b : loc) : {a = b} + {a <> b}.
Proof. decide equality. Qed.
Lemma loc_eqb_eq a b : loc_eqb a b = true <-> a = b.
Proof. destruct a, b; cbn; split; intros H; (reflexivity || discriminate H). Qed.
Lemma loc_eqb_neq a b : a <> b -> loc_eqb a b = false.
Proof. destruct a, b; cbn; intros H; (reflexivity || contradiction (H eq_refl)). Qed.
Lemma lookup_put d l b k : lookup (put d l b) k = if loc_eqb l k then Some b else lookup d k.
Proof. unfold lookup, put. cbn [find fst]. destruct (loc_eqb l k); reflexivity. Qed.

Definition neu_like (t : bctype) : bool := match t with BNeumann | BNonslip => true | _ => false end.
Definition dir_faces (D : bcdom) (bc : list (loc * bctype)) : list Z := flat_map (fun e => match snd e with BDirichlet => bc_faces D (fst e) | _ => [] end) bc.
Definition neu_faces (D : bcdom) (bc : list (loc * bctype)) : list Z := flat_map (fun e => match snd e with BNeumann | BNonslip => bc_faces D (fst e) | _ => [] end) bc.
Definition bref (t : bctype) (b : boundary) : Prop :=
  match t with
  | BDirichlet => b_vface b = r_vface /\ b_vhalo b = r_vhalo
  | BNeumann | BNonslip => b_vface b = r_cell /\ b_vhalo b = r_halo
  | _ => 0 <= b_vface b < 9 /\ 0 <= b_vhalo b < 9
  end.

Section WithD.
Context (D : bcdom) (WF : wf_bcdom D).
Let nf := zlen (bd_name D).
Let h0 := vs_heap (init_state D).

Record inv (vs : list (loc * bcval)) (done : list (loc * bctype)) (s : vstate) : Prop := {
  i_frame : frame [5; 6; 7] h0 (vs_heap s);
  i_names : (forall e, In e done -> neu_like (snd e) = false) -> vs_vf s = r_vface /\ vs_vn s = r_vnode /\ vs_vh s = r_vhalo;
  i_refs : 0 <= vs_vf s < 9 /\ 0 <= vs_vh s < 9;
  i_bcs : forall l t, In (l, t) done -> exists b, lookup (vs_bcs s) l = Some b /\ b_type b = t /\ b_loc b = l /\ In l (sides (bd_dim D)) /\ (side_periodic D l <-> t = BPeriodic) /\ (t = BPeriodic -> b_index b = periodic_label l) /\ bref t b;
  i_none : forall l, ~ In l (map fst done) -> lookup (vs_bcs s) l = None;
  i_val : forall f l, In (l, BDirichlet) done -> In f (bc_faces D l) -> nthZ 0%R (nthZ [] (vs_heap s) 5) f = prescribed D vs [] l BDirichlet f;
  i_zero : forall f, 0 <= f < nf -> (forall l, In (l, BDirichlet) done -> ~ In f (bc_faces D l)) -> nthZ 0%R (nthZ [] (vs_heap s) 5) f = 0%R;
  i_dir : vs_dir s = dir_faces D done;
  i_neu : vs_neu s = neu_faces D done }.

Lemma init_inv vs : inv vs [] (init_state D).
Proof.
  constructor.
  - apply frame_refl.
  - intros _. repeat split.
  - split; (split; [discriminate | reflexivity]).
  - intros ? ? [].
  - reflexivity.
  - intros ? ? [].
  - intros f Hf _. change (nthZ 0%R (zeros_like 0%R nf) f = 0%R). apply nthZ_zeros_like; exact Hf.
  - reflexivity.
  - reflexivity.
Qed.

Lemma h0_len : zlen h0 = 9. Proof. reflexivity. Qed.
Lemma len_nf : zlen (nthZ [] h0 5) = nf. Proof. unfold h0, init_state; cbn [vs_heap]. change (zlen (zeros_like 0%R nf) = nf). apply zlen_zeros_like. unfold nf; apply zlen_nonneg. Qed.
Lemma len_vn : zlen (nthZ [] h0 6) = bd_nbnodes D. Proof. change (zlen (zeros_like 0%R (bd_nbnodes D)) = bd_nbnodes D). apply zlen_zeros_like. pose proof (wb_size D WF); lia. Qed.
Lemma len_vh : zlen (nthZ [] h0 7) = bd_sizehg D. Proof. change (zlen (zeros_like 0%R (bd_sizehg D)) = bd_sizehg D). apply zlen_zeros_like. pose proof (wb_size D WF); lia. Qed.

(** is one entry consistent? *)
Definition good (vs : list (loc * bcval)) (e : loc * bctype) : bool :=
  match domain_bc D (fst e) with
  | Ok (p, _) => match snd e with BPeriodic => p | BDirichlet => negb p && match lookup vs (fst e) with Some _ => true | None => false end | _ => negb p end
  | Err _ => false
  end.

Lemma lookup_value_prescribed vs l v f : lookup vs l = Some v -> 0 <= f < nf ->
  prescribed D vs [] l BDirichlet f = match eval_val v (nthZ vzero (bd_fcenter D) f) with Some y => y | None => 0%R end.
Proof. intros E Hf. unfold prescribed. rewrite E. destruct v; reflexivity. Qed.

Lemma entry_step vs done s l t : inv vs done s -> ~ In l (map fst done) -> In l (sides (bd_dim D)) -> t <> BSlip -> t <> BOther ->
  (t = BDirichlet -> forall e, In e done -> neu_like (snd e) = false) ->
  if good vs (l, t) then exists s', bc_entry D (Some vs) s (l, t) = Ok s' /\ inv vs (done ++ [(l, t)]) s' else bc_entry D (Some vs) s (l, t) = Err ValueError.
Proof.
  intros I Hl HL T1 T2 HD. unfold good, bc_entry. cbn [fst snd]. destruct (domain_bc_ok D WF l HL) as (p & i & E & PS & PI). rewrite E. cbn [bind].
  assert (NL : forall (b : boundary) k t', In (k, t') done -> lookup (put (vs_bcs s) l b) k = lookup (vs_bcs s) k).
  { intros b k t' Hk. rewrite lookup_put, loc_eqb_neq; [reflexivity|]. intros ->. apply Hl. apply in_map_iff. exists (k, t'). split; [reflexivity | exact Hk]. }
  assert (NN : forall (b : boundary) k, ~ In k (map fst (done ++ [(l, t)])) -> lookup (put (vs_bcs s) l b) k = None).
  { intros b k Hk. rewrite map_app in Hk. rewrite lookup_put, loc_eqb_neq; [apply (i_none _ _ _ I) |]; intros H; apply Hk; apply in_or_app; [left; exact H | right; left; exact H]. }
  assert (NB : forall (b : boundary), b_type b = t -> b_loc b = l -> b_index b = i -> (p = true <-> t = BPeriodic) -> bref t b ->
     forall k t', In (k, t') (done ++ [(l, t)]) -> exists b', lookup (put (vs_bcs s) l b) k = Some b' /\ b_type b' = t' /\ b_loc b' = k /\ In k (sides (bd_dim D)) /\ (side_periodic D k <-> t' = BPeriodic) /\ (t' = BPeriodic -> b_index b' = periodic_label k) /\ bref t' b').
  { intros b B1 B2 B3 B4 B5 k t' Hk. apply in_app_or in Hk. destruct Hk as [Hk | [Hk | []]].
    - rewrite (NL b k t' Hk). exact (i_bcs _ _ _ I k t' Hk).
    - injection Hk as <- <-. exists b. rewrite lookup_put, (proj2 (loc_eqb_eq l l) eq_refl). split; [reflexivity|]. split; [exact B1|]. split; [exact B2|]. split; [exact HL|]. split; [rewrite <- PS; exact B4|]. split; [intros HT; rewrite B3; apply PI, B4, HT | exact B5]. }
  
  assert (FV : neu_like t = true \/ t = BPeriodic -> forall s', vs_heap s' = vs_heap s ->
     (forall f k, In (k, BDirichlet) (done ++ [(l, t)]) -> In f (bc_faces D k) -> nthZ 0%R (nthZ [] (vs_heap s') 5) f = prescribed D vs [] k BDirichlet f) /\
     (forall f, 0 <= f < nf -> (forall k, In (k, BDirichlet) (done ++ [(l, t)]) -> ~ In f (bc_faces D k)) -> nthZ 0%R (nthZ [] (vs_heap s') 5) f = 0%R)).
  { intros HT s' ->. split.
    - intros f k Hk Hf. apply (i_val _ _ _ I f k); [|exact Hf]. apply in_app_or in Hk. destruct Hk as [Hk | [Hk | []]]; [exact Hk|]. injection Hk as _ ->. destruct HT as [HT|HT]; discriminate HT.
    - intros f Hf Hn. apply (i_zero _ _ _ I f Hf). intros k Hk. apply Hn. apply in_or_app; left; exact Hk. }
  assert (DN : dir_faces D (done ++ [(l, t)]) = dir_faces D done ++ match t with BDirichlet => bc_faces D l | _ => [] end /\ neu_faces D (done ++ [(l, t)]) = neu_faces D done ++ match t with BNeumann | BNonslip => bc_faces D l | _ => [] end).
  { unfold dir_faces, neu_faces. rewrite !flat_map_app. cbn [flat_map fst snd]. rewrite !app_nil_r. split; reflexivity. }
  destruct DN as (DN1 & DN2).
  destruct t; try contradiction.
  - (* neumann *) destruct p; cbn [andb negb]; [reflexivity|]. cbn [new_boundary bind]. eexists. split; [reflexivity|]. destruct (FV (or_introl eq_refl) _ eq_refl) as (FV1 & FV2).
    constructor; cbn [vs_heap vs_vf vs_vn vs_vh vs_bcs vs_dir vs_neu].
    + exact (i_frame _ _ _ I).
    + intros H. exfalso. assert (X : neu_like (snd (l, BNeumann)) = false) by (apply H; apply in_or_app; right; left; reflexivity). discriminate X.
    + split; (split; [discriminate | reflexivity]).
    + apply NB; try reflexivity; [split; discriminate | split; reflexivity].
    + apply NN.
    + exact FV1.
    + exact FV2.
    + rewrite DN1, app_nil_r; exact (i_dir _ _ _ I).
    + rewrite DN2. rewrite (i_neu _ _ _ I). reflexivity.
  - (* dirichlet *) destruct p; cbn [andb negb]; [reflexivity|]. cbn [new_boundary bind]. destruct (lookup vs l) as [v|] eqn:EV; [|reflexivity].
    destruct (i_names _ _ _ I (HD eq_refl)) as (V1 & V2 & V3). destruct (i_frame _ _ _ I) as (FL & FR). pose proof h0_len as HL0. rewrite HL0 in FR, FL.
    destruct (FR 5) as (F5 & _); [lia|]. destruct (FR 6) as (F6 & _); [lia|]. destruct (FR 7) as (F7 & _); [lia|]. rewrite len_nf in F5. rewrite len_vn in F6. rewrite len_vh in F7.
    rewrite V1, V2, V3. destruct (write_values_ok D WF l i v r_vface r_vnode r_vhalo (vs_heap s)) as (h' & EW & FW & VW); [unfold r_vface; lia | unfold r_vnode; lia | unfold r_vhalo; lia | discriminate | discriminate | exact F5 | exact F6 | exact F7|].
    rewrite EW. cbn [bind]. eexists. split; [reflexivity|]. constructor; cbn [vs_heap vs_vf vs_vn vs_vh vs_bcs vs_dir vs_neu].
    + apply (frame_incl ([5; 6; 7] ++ [5; 6; 7])); [exact (frame_trans _ _ _ _ _ (i_frame _ _ _ I) FW)|]. cbn [app In]. tauto.
    + intros _. repeat split.
    + split; (split; [discriminate | reflexivity]).
    + apply NB; try reflexivity; [split; discriminate | split; reflexivity].
    + apply NN.
    + intros f k Hk Hf. assert (Hf0 : 0 <= f < nf) by (apply (bc_faces_in D) in Hf; tauto). change 5 with r_vface. rewrite VW by lia. apply in_app_or in Hk. destruct Hk as [Hk | [Hk | []]].
      * assert (NF : mem f (bc_faces D l) = false). { apply mem_not_In. intros Hf'. assert (X := bc_faces_disjoint D _ _ _ Hf Hf'). subst k. apply Hl. apply in_map_iff. exists (l, BDirichlet). split; [reflexivity | exact Hk]. }
        rewrite NF. assert (X := i_val _ _ _ I f k Hk Hf). destruct (eval_val _ _); exact X.
      * injection Hk as <-. rewrite (lookup_value_prescribed vs l v f EV Hf0). destruct (eval_val _ _); [rewrite (proj2 (mem_In _ _) Hf); reflexivity|]. apply (i_zero _ _ _ I f Hf0). intros k Hk Hf'. assert (X := bc_faces_disjoint D _ _ _ Hf Hf'). subst k. apply Hl. apply in_map_iff. exists (l, BDirichlet). split; [reflexivity | exact Hk].
    + intros f Hf Hn. change 5 with r_vface. rewrite VW by lia. assert (NF : mem f (bc_faces D l) = false). { apply mem_not_In. apply Hn. apply in_or_app; right; left; reflexivity. }
      rewrite NF. assert (X : nthZ 0%R (nthZ [] (vs_heap s) 5) f = 0%R). { apply (i_zero _ _ _ I f Hf). intros k Hk. apply Hn. apply in_or_app; left; exact Hk. } destruct (eval_val _ _); exact X.
    + rewrite DN1, (i_dir _ _ _ I). reflexivity.
    + rewrite DN2, app_nil_r. exact (i_neu _ _ _ I).
  - (* periodic *) destruct p; cbn [andb negb]; [|reflexivity]. cbn [new_boundary bind]. eexists. split; [reflexivity|]. destruct (FV (or_intror eq_refl) _ eq_refl) as (FV1 & FV2).
    constructor; cbn [vs_heap vs_vf vs_vn vs_vh vs_bcs vs_dir vs_neu].
    + exact (i_frame _ _ _ I).
    + intros H. apply (i_names _ _ _ I). intros e He. apply H. apply in_or_app; left; exact He.
    + exact (i_refs _ _ _ I).
    + apply NB; try reflexivity; [split; intros; reflexivity | split; (split; [discriminate | reflexivity])].
    + apply NN.
    + exact FV1.
    + exact FV2.
    + rewrite DN1, app_nil_r; exact (i_dir _ _ _ I).
    + rewrite DN2, app_nil_r. exact (i_neu _ _ _ I).
  - (* nonslip *) destruct p; cbn [andb negb]; [reflexivity|]. cbn [new_boundary bind]. eexists. split; [reflexivity|]. destruct (FV (or_introl eq_refl) _ eq_refl) as (FV1 & FV2).
    constructor; cbn [vs_heap vs_vf vs_vn vs_vh vs_bcs vs_dir vs_neu].
    + exact (i_frame _ _ _ I).
    + intros H. exfalso. assert (X : neu_like (snd (l, BNonslip)) = false) by (apply H; apply in_or_app; right; left; reflexivity). discriminate X.
    + split; (split; [discriminate | reflexivity]).
    + apply NB; try reflexivity; [split; discriminate | split; reflexivity].
    + apply NN.
    + exact FV1.
    + exact FV2.
    + rewrite DN1, app_nil_r; exact (i_dir _ _ _ I).
    + rewrite DN2. rewrite (i_neu _ _ _ I). reflexivity.
Qed.

Lemma default_step vs done s l : inv vs done s -> ~ In l (map fst done) -> In l (sides (bd_dim D)) ->
  exists s', bc_default D s l = Ok s' /\ inv vs (done ++ [(l, default_type D l)]) s'.
Proof.
  intros I Hl HL. pose proof (entry_step vs done s l (default_type D l) I Hl HL) as ES. unfold bc_default. unfold default_type in *. unfold good, bc_entry in ES. cbn [fst snd] in ES.
  destruct (domain_bc_ok D WF l HL) as (p & i & E & PS & PI). rewrite E in *. cbn [bind] in *.
  assert (EB : existsb (Z.eqb (periodic_label l)) (bd_name D) = p). { apply eq_true_iff_eq. rewrite PS, existsb_exists. unfold side_periodic. split; [intros (x & Hx & Ex); apply Z.eqb_eq in Ex; rewrite Ex; exact Hx | intros H; exists (periodic_label l); split; [exact H | apply Z.eqb_refl]]. }
  rewrite EB in *. destruct p; cbn [andb negb] in *.
  - cbn [new_boundary bind] in *. destruct ES as (s' & E' & I'); try discriminate. injection E' as <-. eexists. split; [reflexivity|].
    destruct I'; constructor; cbn [vs_heap vs_vf vs_vn vs_vh vs_bcs vs_dir vs_neu] in *; try assumption.
    + intros k t Hk. destruct (i_bcs0 k t Hk) as (b & B0 & B1 & B2 & B3 & B4 & B6 & B5). rewrite lookup_put in *. destruct (loc_eqb l k) eqn:EK; [|exists b; split; [exact B0 | tauto]].
      injection B0 as <-. cbn [b_type b_loc b_index with_values] in *. eexists. split; [reflexivity|]. cbn [b_type b_loc b_index with_values]. split; [exact B1|]. split; [exact B2|]. split; [exact B3|]. split; [exact B4|]. split; [exact B6|].
      rewrite <- B1. cbn [bref with_values b_vface b_vhalo]. exact i_refs0.
    + intros k Hk. specialize (i_none0 k Hk). rewrite lookup_put in *. destruct (loc_eqb l k); [discriminate i_none0 | exact i_none0].
  - destruct ES as (s' & E' & I'); try discriminate. exists s'. split; [exact E' | exact I'].
Qed.
Lemma default_loop vs rest : forall done s, inv vs done s -> NoDup (map fst done ++ rest) -> (forall l, In l rest -> In l (sides (bd_dim D))) ->
  exists s', foldM (bc_default D) rest s = Ok s' /\ inv vs (done ++ map (fun l => (l, default_type D l)) rest) s'.
Proof.
  induction rest as [|l rest IH]; intros done s I ND HL; [exists s; split; [reflexivity | rewrite app_nil_r; exact I]|]. cbn [foldM map].
  assert (Hl : ~ In l (map fst done)) by (apply NoDup_remove_2 in ND; intros H; apply ND; apply in_or_app; left; exact H).
  destruct (default_step vs done s l I Hl (HL l (or_introl eq_refl))) as (s' & E & I'). rewrite E. cbn [bind].
  destruct (IH _ _ I') as (s2 & E2 & I2). { rewrite map_app, <- app_assoc. exact ND. } { intros k Hk; apply HL; right; exact Hk. }
  exists s2. split; [exact E2|]. rewrite <- app_assoc in I2. exact I2.
Qed.

Lemma dirichlet_first_app done l rest : dirichlet_first (done ++ (l, BDirichlet) :: rest) -> forall e, In e done -> neu_like (snd e) = false.
Proof.
  induction done as [|(k, t) done IH]; cbn [app dirichlet_first]; intros H e He; [destruct He|]. destruct H as (H1 & H2). destruct He as [<-|He]; [|apply IH; assumption].
  cbn [snd]. destruct t; try reflexivity; exfalso; apply (H1 ltac:(auto) l); apply in_or_app; right; left; reflexivity.
Qed.

Lemma loop_ok vs rest : forall done s, inv vs done s -> NoDup (map fst (done ++ rest)) -> (forall l t, In (l, t) rest -> In l (sides (bd_dim D)) /\ t <> BSlip /\ t <> BOther) -> dirichlet_first (done ++ rest) ->
  if forallb (good vs) rest then exists s', foldM (bc_entry D (Some vs)) rest s = Ok s' /\ inv vs (done ++ rest) s' else foldM (bc_entry D (Some vs)) rest s = Err ValueError.
Proof.
  induction rest as [|(l, t) rest IH]; intros done s I ND HK DF; [exists s; split; [reflexivity | rewrite app_nil_r; exact I]|].
  cbn [forallb foldM]. destruct (HK l t (or_introl eq_refl)) as (K1 & K2 & K3).
  assert (HD : t = BDirichlet -> forall e, In e done -> neu_like (snd e) = false) by (intros ->; exact (dirichlet_first_app done l rest DF)).
  assert (Hl : ~ In l (map fst done)). { rewrite map_app in ND. cbn [map fst] in ND. apply NoDup_remove_2 in ND. intros H; apply ND; apply in_or_app; left; exact H. }
  pose proof (entry_step vs done s l t I Hl K1 K2 K3 HD) as HS. destruct (good vs (l, t)); cbn [andb].
  - destruct HS as (s' & E & I'). rewrite E. cbn [bind]. replace (done ++ (l, t) :: rest) with ((done ++ [(l, t)]) ++ rest) in * by (rewrite <- app_assoc; reflexivity).
    apply IH; [exact I' | exact ND | | exact DF]. intros l' t' H; apply HK; right; exact H.
  - rewrite HS. reflexivity.
Qed.

Lemma good_consistent bc vs : bc_known D bc -> (forallb (good vs) bc = true <-> bc_consistent D bc vs).
Proof.
  intros (_ & HK). rewrite forallb_forall. unfold bc_consistent. split.
  - intros H. split.
    + intros l t Hin. specialize (H _ Hin). unfold good in H. cbn [fst snd] in H. destruct (domain_bc_ok D WF l (proj1 (HK l t Hin))) as (p & i & E & PS & _). rewrite E in H. rewrite <- PS. split.
      * intros ->. exact H.
      * intros ->. destruct t; try discriminate H; reflexivity.
    + intros l Hin. specialize (H _ Hin). unfold good in H. cbn [fst snd] in H. destruct (domain_bc D l) as [(p, i)|]; [|discriminate H]. apply andb_prop in H. destruct H as (_ & H). destruct (lookup vs l); discriminate.
  - intros (H1 & H2) (l, t) Hin. destruct (HK l t Hin) as (K1 & K2 & K3). unfold good. cbn [fst snd]. destruct (domain_bc_ok D WF l K1) as (p & i & E & PS & _). rewrite E.
    assert (X : p = true <-> t = BPeriodic) by (rewrite PS; symmetry; exact (H1 l t Hin)).
    destruct p; cbn [negb]. { rewrite (proj1 X eq_refl). reflexivity. } destruct t; try contradiction; try reflexivity; [|discriminate (proj2 X eq_refl)]. specialize (H2 l Hin). cbn [andb]. destruct (lookup vs l); [reflexivity | contradiction (H2 eq_refl)].
Qed.

(** ** update of the ghosts *)
Lemma haloghost_loop_ok f halonodes (w : list R) n : zlen w = n ->
  (forall i, In i halonodes -> 0 <= i < zlen (bd_hg D)) -> forall idx,
  (forall i e, In i halonodes -> In e (nthZ [] (bd_hg D) i) -> g_last e <> -1 -> g_name e = idx -> 0 <= g_last e < n /\ exists v, f e = Ok v) ->
  exists w', haloghost_loop f (bd_hg D) idx halonodes w = Ok w' /\ zlen w' = n.
Proof.
  intros Hw Hi idx He. unfold haloghost_loop. apply (foldM_total (fun w => zlen w = n)); [exact Hw|]. intros w1 i H1 Hin. rewrite (get_nthZ []) by (apply Hi; exact Hin). cbn [bind].
  apply (foldM_total (fun w => zlen w = n)); [exact H1|]. intros w2 j H2 Hj. apply in_range in Hj. rewrite (get_nthZ gpad) by exact Hj. cbn [bind]. set (e := nthZ gpad (nthZ [] (bd_hg D) i) j).
  destruct (negb (g_last e =? -1) && (g_name e =? idx)) eqn:C; [|exists w2; split; [reflexivity | exact H2]]. apply andb_prop in C. destruct C as (C1 & C2).
  destruct (He i e Hin) as (B & v & Ev); [apply nthZ_In; exact Hj | intro X; rewrite X in C1; discriminate C1 | lia|]. rewrite Ev. cbn [bind]. rewrite set_upd by lia. eexists. split; [reflexivity|]. rewrite zlen_upd; exact H2.
Qed.
Lemma haloghost_loop_none f halonodes (w : list R) : (forall i, In i halonodes -> 0 <= i < zlen (bd_hg D)) -> forall idx,
  (forall i e, In i halonodes -> In e (nthZ [] (bd_hg D) i) -> g_last e <> -1 -> g_name e <> idx) ->
  haloghost_loop f (bd_hg D) idx halonodes w = Ok w.
Proof.
  intros Hi idx He. unfold haloghost_loop. induction halonodes as [|i hn IH]; [reflexivity|]. cbn [foldM]. rewrite (get_nthZ []) by (apply Hi; left; reflexivity). cbn [bind].
  assert (X : foldM (fun w j => do e <- get (nthZ [] (bd_hg D) i) j; if negb (g_last e =? -1) && (g_name e =? idx) then do v <- f e; set w (g_last e) v else ret w) (range (zlen (nthZ [] (bd_hg D) i))) w = Ok w).
  { assert (Y : forall js, (forall j, In j js -> 0 <= j < zlen (nthZ [] (bd_hg D) i)) -> foldM (fun w j => do e <- get (nthZ [] (bd_hg D) i) j; if negb (g_last e =? -1) && (g_name e =? idx) then do v <- f e; set w (g_last e) v else ret w) js w = Ok w).
    { induction js as [|j js IHj]; intros Hj; [reflexivity|]. cbn [foldM]. rewrite (get_nthZ gpad) by (apply Hj; left; reflexivity). cbn [bind]. set (e := nthZ gpad (nthZ [] (bd_hg D) i) j).
      destruct (negb (g_last e =? -1) && (g_name e =? idx)) eqn:C. { apply andb_prop in C. destruct C as (C1 & C2). exfalso. apply (He i e); [left; reflexivity | apply nthZ_In, Hj; left; reflexivity | intro X; rewrite X in C1; discriminate C1 | lia]. }
      cbn [bind]. apply IHj. intros k Hk; apply Hj; right; exact Hk. }
    apply Y. intros j Hj; apply in_range; exact Hj. }
  rewrite X. cbn [bind]. apply IH; [intros k Hk; apply Hi; right; exact Hk | intros k e Hk; apply He; right; exact Hk].
Qed.

(** the heap of a variable in use: the sizes, the dirichlet values and the empty array are those of a new variable *)
Definition shape (s : vstate) (h : heap) : Prop := frame [0; 1; 2; 3; 4] (vs_heap s) h.

Section Built.
Context (vs : list (loc * bcval)) (bc : list (loc * bctype)) (s : vstate).
Hypothesis I : inv vs bc s.
Hypothesis NS : nonslip_readable D bc.

Lemma shape_len h r : shape s h -> 0 <= r < 9 -> zlen (nthZ [] h r) = zlen (nthZ [] h0 r).
Proof. intros (A & B) Hr. destruct (i_frame _ _ _ I) as (A' & B'). rewrite h0_len in A', B'. destruct (B' r Hr) as (L1 & _). destruct (B r) as (L2 & _); [lia|]. congruence. Qed.
Lemma shape_zlen h : shape s h -> zlen h = 9.
Proof. intros (A & _). destruct (i_frame _ _ _ I) as (A' & _). rewrite h0_len in A'. congruence. Qed.
Lemma shape_val h : shape s h -> nthZ [] h 5 = nthZ [] (vs_heap s) 5.
Proof. intros (A & B). destruct (i_frame _ _ _ I) as (A' & _). rewrite h0_len in A'. destruct (B 5) as (_ & X); [lia|]. apply X. cbn [In]. lia. Qed.
Lemma shape_frame h h' : shape s h -> frame [3; 4] h h' -> shape s h'.
Proof. intros A B. apply (frame_incl ([0; 1; 2; 3; 4] ++ [3; 4])); [exact (frame_trans _ _ _ _ _ A B)|]. cbn [app In]. lia. Qed.

Lemma update_one_ok l t b h : In (l, t) bc -> t <> BSlip -> t <> BOther -> lookup (vs_bcs s) l = Some b -> shape s h ->
  exists h', update_one D h b = Ok h' /\ frame [3; 4] h h' /\
  forall f, 0 <= f -> nthZ 0%R (nthZ [] h' 3) f = if mem f (bc_faces D l) then prescribed D vs (nthZ [] h 0) l t f else nthZ 0%R (nthZ [] h 3) f.
Proof.
  intros Hin T1 T2 EL SH. destruct (i_bcs _ _ _ I l t Hin) as (b' & E' & B1 & B2 & B3 & B4 & B6 & B5). rewrite EL in E'. injection E' as <-.
  pose proof (shape_zlen h SH) as LZ. destruct (wb_size D WF) as (S1 & S2 & S3 & S4). destruct (wb_len D WF) as (L1 & L2 & _ & _ & L5 & _).
  assert (Z0 : zlen (nthZ [] h 0) = bd_nbcells D) by (rewrite (shape_len h 0 SH) by lia; change (zlen (zeros_like 0%R (bd_nbcells D)) = bd_nbcells D); apply zlen_zeros_like; lia).
  assert (Z2 : zlen (nthZ [] h 2) = bd_nbhalos D) by (rewrite (shape_len h 2 SH) by lia; change (zlen (zeros_like 0%R (bd_nbhalos D)) = bd_nbhalos D); apply zlen_zeros_like; lia).
  assert (Z3 : zlen (nthZ [] h 3) = nf) by (rewrite (shape_len h 3 SH) by lia; change (zlen (zeros_like 0%R nf) = nf); apply zlen_zeros_like; unfold nf; apply zlen_nonneg).
  assert (Z4 : zlen (nthZ [] h 4) = bd_sizehg D) by (rewrite (shape_len h 4 SH) by lia; change (zlen (zeros_like 0%R (bd_sizehg D)) = bd_sizehg D); apply zlen_zeros_like; lia).
  assert (Z5 : zlen (nthZ [] h 5) = nf) by (rewrite (shape_len h 5 SH) by lia; exact len_nf).
  assert (Z7 : zlen (nthZ [] h 7) = bd_sizehg D) by (rewrite (shape_len h 7 SH) by lia; exact len_vh).
  assert (HHN : forall i, In i (bd_halonodes D) -> 0 <= i < zlen (bd_hg D)) by (intros i Hi; rewrite L5; exact (wb_halonodes D WF i Hi)).
  assert (HE : forall i e, In i (bd_halonodes D) -> In e (nthZ [] (bd_hg D) i) -> g_last e <> -1 -> 0 <= g_last e < bd_sizehg D /\ 0 <= g_cell e < bd_nbhalos D).
  { intros i e Hi He Hn. destruct (wb_hg D WF i (wb_halonodes D WF i Hi)) as (_ & X). destruct (X e He) as [X'|X']; [contradiction | exact X']. }
  assert (HFC : forall f, In f (bc_faces D l) -> 0 <= f < zlen (nthZ [] h 3) /\ get2 (bd_cellid D) f 0 = Ok (left_cell D f) /\ get (nthZ [] h 0) (left_cell D f) = Ok (nthZ 0%R (nthZ [] h 0) (left_cell D f))).
  { intros f Hf. apply (bc_faces_in D) in Hf. destruct Hf as (Hf & _). fold nf in Hf. rewrite Z3. destruct (wb_cell D WF f Hf) as (C1 & C2). split; [exact Hf|]. split; [apply (get2_nthZ 0); [rewrite L2; exact Hf | lia]|]. apply get_nthZ. rewrite Z0. exact C2. }
  assert (FIN : forall g hg, zlen g = nf -> zlen hg = bd_sizehg D -> exists h', (do h <- set h r_ghost g; set h r_haloghost hg) = Ok h' /\ frame [3; 4] h h' /\ nthZ [] h' 3 = g).
  { intros g hg Hg Hhg. rewrite set_upd by (unfold r_ghost; lia). cbn [bind]. rewrite set_upd by (rewrite zlen_upd; unfold r_haloghost; lia). eexists. split; [reflexivity|]. split.
    - apply (frame_incl ([3] ++ [4])); [|cbn [app In]; tauto]. eapply frame_trans; [apply (frame_upd h 3 g); [lia | congruence]|]. apply frame_upd; [rewrite zlen_upd; unfold r_haloghost; lia|]. rewrite nthZ_upd_neq by (unfold r_haloghost, r_ghost; lia). unfold r_haloghost; congruence.
    - rewrite nthZ_upd_neq by (unfold r_haloghost, r_ghost; lia). apply nthZ_upd_eq. unfold r_ghost; lia. }
  unfold update_one. rewrite B1, B2. rewrite (get_nthZ [] h r_ghost) by (unfold r_ghost; lia). rewrite (get_nthZ [] h r_haloghost) by (unfold r_haloghost; lia).
  destruct t; try contradiction; cbn [bref] in B5; destruct B5 as (BV & BH); try rewrite BV, BH.
  - (* neumann *) rewrite (get_nthZ [] h r_cell), (get_nthZ [] h r_halo) by (unfold r_cell, r_halo; lia). cbn [bind].
    destruct (foldM_writes 0%R (fun i => do c <- get2 (bd_cellid D) i 0; get (nthZ [] h 0) c) (fun f => nthZ 0%R (nthZ [] h 0) (left_cell D f)) (bc_faces D l) (nthZ [] h 3)) as (g & Eg & Lg & Vg).
    { intros f Hf. destruct (HFC f Hf) as (F1 & F2 & F3). split; [exact F1|]. rewrite F2. exact F3. }
    assert (Eg' : ghost_value_neumann (nthZ [] h r_cell) (nthZ [] h r_ghost) (bd_cellid D) (bc_faces D l) = Ok g). { rewrite <- Eg. unfold ghost_value_neumann. apply foldM_ext. intros g' i _. rewrite bind_assoc. reflexivity. }
    rewrite Eg'. cbn [bind]. destruct (haloghost_loop_ok (fun e => get (nthZ [] h 2) (g_cell e)) (bd_halonodes D) (nthZ [] h 4) _ Z4 HHN (b_index b)) as (hg & Ehg & Lhg).
    { intros i e Hi He Hn _. destruct (HE i e Hi He Hn) as (X1 & X2). split; [exact X1|]. exists (nthZ 0%R (nthZ [] h 2) (g_cell e)). apply get_nthZ. lia. }
    unfold haloghost_value_neumann. change r_halo with 2. change r_haloghost with 4 at 1. rewrite Ehg. cbn [bind fst snd]. destruct (FIN g hg) as (h' & Eh & Fh & Gh); [congruence | exact Lhg|]. exists h'. split; [exact Eh|]. split; [exact Fh|].
    intros f Hf. rewrite Gh, Vg by exact Hf. reflexivity.
  - (* dirichlet *) rewrite (get_nthZ [] h r_vface), (get_nthZ [] h r_vhalo) by (unfold r_vface, r_vhalo; lia). cbn [bind].
    destruct (foldM_writes 0%R (get (nthZ [] h 5)) (fun f => prescribed D vs (nthZ [] h 0) l BDirichlet f) (bc_faces D l) (nthZ [] h 3)) as (g & Eg & Lg & Vg).
    { intros f Hf. destruct (HFC f Hf) as (F1 & _). split; [exact F1|]. rewrite (get_nthZ 0%R) by congruence. f_equal. rewrite (shape_val h SH). exact (i_val _ _ _ I f l Hin Hf). }
    unfold ghost_value_dirichlet. change r_vface with 5. change r_ghost with 3 at 1. rewrite Eg. cbn [bind]. destruct (haloghost_loop_ok (fun e => get (nthZ [] h 7) (g_last e)) (bd_halonodes D) (nthZ [] h 4) _ Z4 HHN (b_index b)) as (hg & Ehg & Lhg).
    { intros i e Hi He Hn _. destruct (HE i e Hi He Hn) as (X1 & X2). split; [exact X1|]. exists (nthZ 0%R (nthZ [] h 7) (g_last e)). apply get_nthZ. lia. }
    unfold haloghost_value_dirichlet. change r_vhalo with 7. change r_haloghost with 4 at 1. rewrite Ehg. cbn [bind fst snd]. destruct (FIN g hg) as (h' & Eh & Fh & Gh); [congruence | exact Lhg|]. exists h'. split; [exact Eh|]. split; [exact Fh|].
    intros f Hf. rewrite Gh, Vg by exact Hf. reflexivity.
  - (* periodic *) rewrite (get_nthZ [] h (b_vface b)), (get_nthZ [] h (b_vhalo b)) by lia. cbn [bind]. pose proof (proj2 B4 eq_refl) as PER. rewrite (periodic_no_faces D WF l B3 PER). unfold ghost_value_neumann. cbn [foldM bind].
    unfold haloghost_value_neumann. rewrite haloghost_loop_none; [|exact HHN | intros i e Hi He Hn; rewrite (B6 eq_refl); exact (wb_hgperiodic D WF l i e B3 PER Hi He Hn)]. cbn [bind fst snd].
    destruct (FIN (nthZ [] h 3) (nthZ [] h 4) Z3 Z4) as (h' & Eh & Fh & Gh). exists h'. split; [exact Eh|]. split; [exact Fh|]. intros f _. rewrite Gh. reflexivity.
  - (* nonslip *) rewrite (get_nthZ [] h r_cell), (get_nthZ [] h r_halo) by (unfold r_cell, r_halo; lia). cbn [bind].
    destruct (foldM_writes 0%R (fun i => do c <- get2 (bd_cellid D) i 0; do w <- get (nthZ [] h 0) c; ret (-1 * w)%R) (fun f => (- nthZ 0%R (nthZ [] h 0) (left_cell D f))%R) (bc_faces D l) (nthZ [] h 3)) as (g & Eg & Lg & Vg).
    { intros f Hf. destruct (HFC f Hf) as (F1 & F2 & F3). split; [exact F1|]. rewrite F2. cbn [bind]. rewrite F3. cbn [bind]. f_equal. ring. }
    assert (Eg' : ghost_value_nonslip (nthZ [] h r_cell) (nthZ [] h r_ghost) (bd_cellid D) (bc_faces D l) = Ok g). { rewrite <- Eg. unfold ghost_value_nonslip. apply foldM_ext. intros g' i _. rewrite !bind_assoc. destruct (get2 (bd_cellid D) i 0); [cbn [bind]|reflexivity]. rewrite bind_assoc. reflexivity. }
    rewrite Eg'. cbn [bind]. destruct (haloghost_loop_ok (fun e => do v <- get (nthZ [] h 2) (g_last e); ret (-1 * v)%R) (bd_halonodes D) (nthZ [] h 4) _ Z4 HHN (b_index b)) as (hg & Ehg & Lhg).
    { intros i e Hi He Hn _. destruct (HE i e Hi He Hn) as (X1 & X2). pose proof (NS l i e Hin Hi He Hn) as X3. split; [exact X1|]. exists (-1 * nthZ 0%R (nthZ [] h 2) (g_last e))%R. rewrite (get_nthZ 0%R) by lia. reflexivity. }
    unfold haloghost_value_nonslip. change r_halo with 2. change r_haloghost with 4 at 1. rewrite Ehg. cbn [bind fst snd]. destruct (FIN g hg) as (h' & Eh & Fh & Gh); [congruence | exact Lhg|]. exists h'. split; [exact Eh|]. split; [exact Fh|].
    intros f Hf. rewrite Gh, Vg by exact Hf. reflexivity.
Qed.

Lemma update_loop ls : (forall l, In l ls -> exists t, In (l, t) bc /\ t <> BSlip /\ t <> BOther) -> NoDup ls -> forall h, shape s h ->
  exists h', foldM (fun h l => match lookup (vs_bcs s) l with None => Err AttributeError | Some b => update_one D h b end) ls h = Ok h' /\ frame [3; 4] h h' /\
  (forall l t f, NoDup (map fst bc) -> In l ls -> In (l, t) bc -> In f (bc_faces D l) -> nthZ 0%R (nthZ [] h' 3) f = prescribed D vs (nthZ [] h 0) l t f) /\
  (forall f, 0 <= f -> (forall l, In l ls -> ~ In f (bc_faces D l)) -> nthZ 0%R (nthZ [] h' 3) f = nthZ 0%R (nthZ [] h 3) f).
Proof.
  intros HB. induction ls as [|l ls IH]; intros NDl h SH.
  { exists h. split; [reflexivity|]. split; [apply frame_refl|]. split; [intros ? ? ? _ []|]. intros; reflexivity. }
  destruct (HB l (or_introl eq_refl)) as (t & Hin & T1 & T2). destruct (i_bcs _ _ _ I l t Hin) as (b & EL & _). cbn [foldM]. rewrite EL.
  destruct (update_one_ok l t b h Hin T1 T2 EL SH) as (h1 & E1 & F1 & V1). rewrite E1. cbn [bind]. inversion NDl as [|? ? N1 N2]; subst.
  destruct (IH (fun k Hk => HB k (or_intror Hk)) N2 h1 (shape_frame h h1 SH F1)) as (h2 & E2 & F2 & P2 & O2). exists h2. split; [exact E2|].
  assert (C1 : nthZ [] h1 0 = nthZ [] h 0). { pose proof (shape_zlen h SH) as LZ. destruct F1 as (_ & Fr). destruct (Fr 0) as (_ & X); [lia|]. apply X. cbn [In]. lia. }
  split. { apply (frame_incl ([3; 4] ++ [3; 4])); [exact (frame_trans _ _ _ _ _ F1 F2)|]. cbn [app In]. tauto. } split.
  - intros k t' f NDb Hk Hkt Hf. destruct (in_dec loc_dec k ls) as [Hk2|Hk2]. { rewrite (P2 k t' f NDb Hk2 Hkt Hf), C1. reflexivity. }
    destruct Hk as [<-|Hk]; [|contradiction]. assert (Hf0 : 0 <= f) by (apply (bc_faces_in D) in Hf; lia).
    rewrite O2; [|exact Hf0|]. 2:{ intros k Hk Hf'. assert (X := bc_faces_disjoint D _ _ _ Hf Hf'). subst k. contradiction. }
    rewrite V1 by exact Hf0. rewrite (proj2 (mem_In _ _) Hf). assert (ET : t' = t); [|rewrite ET; reflexivity].
    clear - NDb Hin Hkt. induction bc as [|(k, u) r IHr]; [destruct Hin|]. cbn [map fst] in NDb. inversion NDb as [|? ? M1 M2]; subst. destruct Hin as [Hin|Hin], Hkt as [Hkt|Hkt].
    + congruence.
    + injection Hin as -> ->. exfalso; apply M1. apply in_map_iff. exists (l, t'). split; [reflexivity | exact Hkt].
    + injection Hkt as -> ->. exfalso; apply M1. apply in_map_iff. exists (l, t). split; [reflexivity | exact Hin].
    + apply IHr; assumption.
  - intros f Hf Hn. rewrite O2; [|exact Hf | intros k Hk; apply Hn; right; exact Hk]. rewrite V1 by exact Hf. assert (X := Hn l (or_introl eq_refl)). apply mem_not_In in X. rewrite X. reflexivity.
Qed.

(** a variable in use *)
Definition in_use (w : list R) (v : variable) : Prop := va_cell v = r_cell /\ va_bcs v = vs_bcs s /\ shape s (va_heap v) /\ nthZ [] (va_heap v) 0 = w.
Hypothesis KN : bc_known D bc.
Hypothesis CO : bc_complete D bc.

Lemma locs_NoDup : NoDup (sides (bd_dim D)).
Proof. unfold sides. destruct (bd_dim D =? 3); repeat (constructor; [cbn; intuition discriminate|]); constructor. Qed.

Lemma update_in_use w v : in_use w v -> exists v', update_ghost_value D v = Ok v' /\ in_use w v' /\ ghosts_updated D bc vs w (nthZ [] (va_heap v) 3) (nthZ [] (va_heap v') 3).
Proof.
  intros (U1 & U2 & U3 & U4). unfold update_ghost_value. rewrite U2.
  change (locs (bd_dim D)) with (sides (bd_dim D)). destruct (update_loop (sides (bd_dim D))) with (h := va_heap v) as (h' & E & F & P & O); [| exact locs_NoDup | exact U3|].
  { intros l Hl. specialize (CO l Hl). apply in_map_iff in CO. destruct CO as ((k, t) & Ek & Hin). cbn [fst] in Ek. subst k. exists t. split; [exact Hin|]. destruct KN as (_ & K). destruct (K l t Hin) as (_ & K1 & K2). split; assumption. }
  rewrite E. cbn [bind]. eexists. split; [reflexivity|]. cbn [va_heap va_cell va_bcs]. pose proof (shape_zlen _ U3) as LZ. split.
  - split; [exact U1|]. split; [reflexivity|]. split; [exact (shape_frame _ _ U3 F)|]. cbn [va_heap]. destruct F as (_ & Fr). destruct (Fr 0) as (_ & X); [lia|]. rewrite X by (cbn [In]; lia). exact U4.
  - split; [|split].
    + rewrite (shape_len h' 3 (shape_frame _ _ U3 F)) by lia. change (zlen (zeros_like 0%R nf) = nf). apply zlen_zeros_like. unfold nf; apply zlen_nonneg.
    + intros l t f Hin Hf En. destruct KN as (ND & K). rewrite <- U4. apply P; [exact ND | apply (K l t Hin) | exact Hin | apply bc_faces_in; split; assumption].
    + intros f Hf Hn. apply O; [lia|]. intros l Hl Hl'. apply bc_faces_in in Hl'. apply (Hn l Hl). apply Hl'.
Qed.

Lemma fill_shape h r w : shape s h -> 0 <= r < 5 -> zlen w = zlen (nthZ [] h0 r) -> set h r w = Ok (upd h r w) /\ shape s (upd h r w).
Proof.
  intros SH Hr Hw. pose proof (shape_zlen h SH) as LZ. split; [apply set_upd; lia|].
  apply (frame_incl ([0; 1; 2; 3; 4] ++ [r])); [eapply frame_trans; [exact SH | apply frame_upd; [lia|]]|].
  - rewrite (shape_len h r SH) by lia. exact Hw.
  - intros q Hq. apply in_app_or in Hq. cbn [In] in *. lia.
Qed.

Lemma apply_in_use w v o : in_use w v -> op_ok D o -> exists v', apply D v o = Ok v' /\ in_use (match o with SetCell w' => w' | _ => w end) v'.
Proof.
  intros U Ho. destruct (wb_size D WF) as (S1 & S2 & S3 & S4). destruct o; cbn [apply].
  5:{ destruct (update_in_use w v U) as (v' & E & U' & _). exists v'. split; assumption. }
  all: destruct U as (U1 & U2 & U3 & U4); pose proof (shape_zlen _ U3) as LZ; cbn [op_ok] in Ho; unfold fill.
  - rewrite U1. destruct (fill_shape (va_heap v) r_cell w0 U3) as (E & S'); [unfold r_cell; lia | rewrite Ho; symmetry; exact (zlen_zeros_like 0%R _ S1) |]. rewrite E. cbn [bind]. eexists. split; [reflexivity|].
    split; [reflexivity|]. split; [exact U2|]. split; [exact S'|]. cbn [va_heap]. apply (nthZ_upd_eq [] (va_heap v) 0). lia.
  - destruct (fill_shape (va_heap v) r_node w0 U3) as (E & S'); [unfold r_node; lia | rewrite Ho; symmetry; exact (zlen_zeros_like 0%R _ S2) |]. rewrite E. cbn [bind]. eexists. split; [reflexivity|].
    split; [exact U1|]. split; [exact U2|]. split; [exact S'|]. cbn [va_heap]. unfold r_node. rewrite nthZ_upd_neq by lia. exact U4.
  - destruct (fill_shape (va_heap v) r_halo w0 U3) as (E & S'); [unfold r_halo; lia | rewrite Ho; symmetry; exact (zlen_zeros_like 0%R _ S3) |]. rewrite E. cbn [bind]. eexists. split; [reflexivity|].
    split; [exact U1|]. split; [exact U2|]. split; [exact S'|]. cbn [va_heap]. unfold r_halo. rewrite nthZ_upd_neq by lia. exact U4.
  - destruct (fill_shape (va_heap v) r_ghost w0 U3) as (E & S'); [unfold r_ghost; lia | rewrite Ho; symmetry; exact (zlen_zeros_like 0%R _ (zlen_nonneg _)) |]. rewrite E. cbn [bind]. eexists. split; [reflexivity|].
    split; [exact U1|]. split; [exact U2|]. split; [exact S'|]. cbn [va_heap]. unfold r_ghost. rewrite nthZ_upd_neq by lia. exact U4.
Qed.

Lemma run_in_use ops : forall w v, in_use w v -> Forall (op_ok D) ops ->
  exists v', foldM (apply D) ops v = Ok v' /\ in_use (fold_left (fun w o => match o with SetCell w' => w' | _ => w end) ops w) v'.
Proof.
  induction ops as [|o ops IH]; intros w v U HO; [exists v; split; [reflexivity | exact U]|]. inversion HO as [|? ? O1 O2]; subst. cbn [foldM fold_left].
  destruct (apply_in_use w v o U O1) as (v1 & E & U1). rewrite E. cbn [bind]. apply IH; assumption.
Qed.
End Built.

Lemma built_in_use vs bc s : inv vs bc s -> forall v, v = {| va_heap := vs_heap s; va_cell := r_cell; va_bcs := vs_bcs s; va_dirichletfaces := np_sort (vs_dir s); va_neumannfaces := np_sort (vs_neu s);
         va_BCdirichlet := vs_bcd s; va_BCneumann := vs_bcn s |} -> in_use s (held D []) v.
Proof.
  intros I v ->. split; [reflexivity|]. split; [reflexivity|]. split; [apply frame_refl|]. cbn [va_heap held fold_left]. destruct (i_frame _ _ _ I) as (_ & Fr). destruct (Fr 0) as (_ & X); [rewrite h0_len; lia|].
  rewrite X by (cbn [In]; lia). reflexivity.
Qed.
End WithD.
