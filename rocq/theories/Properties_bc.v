(** * Properties_bc: C35, C36, C37, C51.
    Vocabulary: [Spec_bc]. *)
From Verif Require Import Py PyLemmas Model_part Model_label Model_conn Model_geom Spec_geom Model_interp Spec_interp Model_bc Spec_bc Proofs_conn1 Proofs_label Proofs_bc Proofs_bc2.
From Coq Require Import Permutation Lra ZifyBool Sorted.
Open Scope Z_scope.

(** C36.  Creating a variable with a dictionary of known sides and types, dirichlet entries first, succeeds iff periodic is named for exactly
    the periodic sides and every dirichlet side has a value; otherwise it raises ValueError. *)
Theorem C36_dictionary_validated : forall D bc vs, wf_bcdom D -> bc_known D bc -> dirichlet_first bc ->
  ((exists v, new_variable D (Some bc) (Some vs) = Ok v) <-> bc_consistent D bc vs) /\
  (~ bc_consistent D bc vs -> new_variable D (Some bc) (Some vs) = Err ValueError).
Proof.
  intros D bc vs WF KN DF. pose proof (loop_ok D WF vs bc [] (init_state D) (init_inv D vs) (proj1 KN) (proj2 KN) DF) as HL. cbn [app] in HL.
  pose proof (good_consistent D WF bc vs KN) as GC. unfold new_variable. destruct (forallb (good D vs) bc).
  - destruct HL as (s & E & _). rewrite E. cbn [bind]. split; [|intros N; contradiction (N (proj1 GC eq_refl))]. split; [intros _; exact (proj1 GC eq_refl) | intros _; eauto].
  - rewrite HL. cbn [bind]. split; [|reflexivity]. split; [intros (v & E); discriminate E | intros C; discriminate (proj2 GC C)].
Qed.
Print Assumptions C36_dictionary_validated.

(** without a dictionary it always succeeds *)
Theorem C36_no_dictionary : forall D vs, wf_bcdom D -> exists v, new_variable D None vs = Ok v.
Proof.
  intros D vs WF. unfold new_variable. destruct (default_loop D WF [] (locs (bd_dim D)) [] (init_state D) (init_inv D [])) as (s & E & _); [exact (locs_NoDup D) | tauto|]. rewrite E. cbn [bind]. eauto.
Qed.
Print Assumptions C36_no_dictionary.

(** "slip", an accepted type according to the code, never yields a variable: AttributeError (core.py:80) *)
Theorem C36_slip_refuted : forall D values l, wf_bcdom D -> In l (sides (bd_dim D)) -> ~ side_periodic D l -> new_variable D (Some [(l, BSlip)]) values = Err AttributeError.
Proof.
  intros D values l WF Hl NP. unfold new_variable. cbn [foldM]. unfold bc_entry. destruct (domain_bc_ok D WF l Hl) as (p & i & E & PS & _). rewrite E. cbn [bind]. destruct p; [contradiction NP; apply PS; reflexivity|]. reflexivity.
Qed.
Print Assumptions C36_slip_refuted.
(** and a dirichlet entry without a values dictionary is an AttributeError, not a ValueError *)
Theorem C36_no_values_refuted : forall D l, wf_bcdom D -> In l (sides (bd_dim D)) -> ~ side_periodic D l -> new_variable D (Some [(l, BDirichlet)]) None = Err AttributeError.
Proof.
  intros D l WF Hl NP. unfold new_variable. cbn [foldM]. unfold bc_entry. destruct (domain_bc_ok D WF l Hl) as (p & i & E & PS & _). rewrite E. cbn [bind]. destruct p; [contradiction NP; apply PS; reflexivity|]. reflexivity.
Qed.
Print Assumptions C36_no_values_refuted.
(** an unknown boundary type is accepted silently; the error comes at the first update of the ghosts *)
Theorem C36_unknown_type_refuted : forall D values l, wf_bcdom D -> In l (sides (bd_dim D)) -> ~ side_periodic D l ->
  exists v, new_variable D (Some [(l, BOther)]) values = Ok v /\ update_ghost_value D v = Err AttributeError.
Proof.
  intros D values l WF Hl NP. unfold new_variable. cbn [foldM]. unfold bc_entry. destruct (domain_bc_ok D WF l Hl) as (p & i & E & PS & _). rewrite E. cbn [bind]. destruct p; [contradiction NP; apply PS; reflexivity|].
  eexists. split; [reflexivity|]. unfold update_ghost_value. cbn [va_bcs init_state vs_bcs va_heap]. unfold locs. destruct (bd_dim D =? 3); reflexivity.
Qed.
Print Assumptions C36_unknown_type_refuted.

(** C35.  After any history of in-place changes of the arrays, an update of the ghosts stores at every face of side l the value the entry of
    l prescribes for what the cells hold now, and changes neither the other ghosts nor the cells. *)
Theorem C35_ghost_values : forall D bc vs ops, wf_bcdom D -> bc_settings D bc vs -> Forall (op_ok D) ops ->
  exists v0 v1 v2 g1 g2, new_variable D (Some bc) (Some vs) = Ok v0 /\ foldM (apply D) ops v0 = Ok v1 /\ update_ghost_value D v1 = Ok v2 /\
  cell_of v1 = Ok (held D ops) /\ cell_of v2 = Ok (held D ops) /\ ghost_of v1 = Ok g1 /\ ghost_of v2 = Ok g2 /\ ghosts_updated D bc vs (held D ops) g1 g2.
Proof.
  intros D bc vs ops WF (KN & CS & CO & DF & NS) HO.
  pose proof (loop_ok D WF vs bc [] (init_state D) (init_inv D vs) (proj1 KN) (proj2 KN) DF) as HL. rewrite (proj2 (good_consistent D WF bc vs KN) CS) in HL. cbn [app] in HL. destruct HL as (s & E & I).
  unfold new_variable. rewrite E. cbn [bind]. set (v0 := {| va_heap := vs_heap s |}). pose proof (built_in_use D vs bc s I v0 eq_refl) as U0.
  destruct (run_in_use D WF vs bc s I NS KN CO ops _ _ U0 HO) as (v1 & E1 & U1). destruct (update_in_use D WF vs bc s I NS KN CO _ v1 U1) as (v2 & E2 & U2 & G).
  exists v0, v1, v2, (nthZ [] (va_heap v1) 3), (nthZ [] (va_heap v2) 3). destruct U1 as (A1 & A2 & A3 & A4), U2 as (B1 & B2 & B3 & B4). pose proof (shape_zlen D vs bc s I _ A3). pose proof (shape_zlen D vs bc s I _ B3).
  split; [reflexivity|]. split; [exact E1|]. split; [exact E2|]. unfold cell_of, ghost_of. rewrite A1, B1. unfold r_cell, r_ghost. rewrite !(get_nthZ []) by lia. rewrite A4, B4.
  split; [reflexivity|]. split; [reflexivity|]. split; [reflexivity|]. split; [reflexivity | exact G].
Qed.
Print Assumptions C35_ghost_values.

(** without a dictionary every side that is not periodic is neumann *)
Theorem C35_no_dictionary : forall D values ops, wf_bcdom D -> Forall (op_ok D) ops ->
  exists v0 v1 v2 g1 g2, new_variable D None values = Ok v0 /\ foldM (apply D) ops v0 = Ok v1 /\ update_ghost_value D v1 = Ok v2 /\
  cell_of v1 = Ok (held D ops) /\ cell_of v2 = Ok (held D ops) /\ ghost_of v1 = Ok g1 /\ ghost_of v2 = Ok g2 /\ ghosts_updated D (default_bc D) [] (held D ops) g1 g2.
Proof.
  intros D values ops WF HO. unfold new_variable. destruct (default_loop D WF [] (locs (bd_dim D)) [] (init_state D) (init_inv D [])) as (s & E & I); [exact (locs_NoDup D) | tauto|]. rewrite E. cbn [bind app] in *.
  change (inv D [] (default_bc D) s) in I. set (v0 := {| va_heap := vs_heap s |}). pose proof (built_in_use D [] (default_bc D) s I v0 eq_refl) as U0.
  assert (FST : map fst (default_bc D) = sides (bd_dim D)) by (unfold default_bc; rewrite map_map; cbn [fst]; apply map_id).
  assert (DT : forall l, default_type D l = BPeriodic \/ default_type D l = BNeumann) by (intros l; unfold default_type; destruct (existsb _ _); auto).
  assert (KN : bc_known D (default_bc D)). { split; [rewrite FST; exact (locs_NoDup D)|]. intros l t Hin. split. { rewrite <- FST. apply in_map_iff. exists (l, t). split; [reflexivity | exact Hin]. } unfold default_bc in Hin. apply in_map_iff in Hin. destruct Hin as (k & Ek & _). injection Ek as -> <-. destruct (DT l) as [-> | ->]; split; discriminate. }
  assert (CO : bc_complete D (default_bc D)) by (intros l Hl; rewrite FST; exact Hl).
  assert (NS : nonslip_readable D (default_bc D)). { intros l i e Hin _ _ _. exfalso. unfold default_bc in Hin. apply in_map_iff in Hin. destruct Hin as (k & Ek & _). injection Ek as -> Et. destruct (DT l) as [X|X]; rewrite X in Et; discriminate Et. }
  destruct (run_in_use D WF [] _ s I NS KN CO ops _ _ U0 HO) as (v1 & E1 & U1). destruct (update_in_use D WF [] _ s I NS KN CO _ v1 U1) as (v2 & E2 & U2 & G).
  exists v0, v1, v2, (nthZ [] (va_heap v1) 3), (nthZ [] (va_heap v2) 3). destruct U1 as (A1 & A2 & A3 & A4), U2 as (B1 & B2 & B3 & B4). pose proof (shape_zlen D [] _ s I _ A3). pose proof (shape_zlen D [] _ s I _ B3).
  split; [reflexivity|]. split; [exact E1|]. split; [exact E2|]. unfold cell_of, ghost_of. rewrite A1, B1. unfold r_cell, r_ghost. rewrite !(get_nthZ []) by lia. rewrite A4, B4.
  split; [reflexivity|]. split; [reflexivity|]. split; [reflexivity|]. split; [reflexivity | exact G].
Qed.
Print Assumptions C35_no_dictionary.

(** C37.  The ghosts of side l depend only on the entry of l: two dictionaries with the same type and value for l give the same ghosts on
    the faces of l after the same history. *)
Theorem C37_sides_independent : forall D bc vs bc' vs' ops l t v v1 v2 v' v1' v2' g g', wf_bcdom D -> bc_settings D bc vs -> bc_settings D bc' vs' ->
  In (l, t) bc -> In (l, t) bc' -> lookup vs l = lookup vs' l -> Forall (op_ok D) ops ->
  new_variable D (Some bc) (Some vs) = Ok v -> foldM (apply D) ops v = Ok v1 -> update_ghost_value D v1 = Ok v2 -> ghost_of v2 = Ok g ->
  new_variable D (Some bc') (Some vs') = Ok v' -> foldM (apply D) ops v' = Ok v1' -> update_ghost_value D v1' = Ok v2' -> ghost_of v2' = Ok g' ->
  forall f, 0 <= f < zlen (bd_name D) -> face_name D f = side_label l -> nthZ 0%R g f = nthZ 0%R g' f.
Proof.
  intros D bc vs bc' vs' ops l t v v1 v2 v' v1' v2' g g' WF S S' Hl Hl' EV HO N1 N2 N3 N4 M1 M2 M3 M4 f Hf En.
  destruct (C35_ghost_values D bc vs ops WF S HO) as (a & b & c & ga & gb & P1 & P2 & P3 & _ & _ & _ & P4 & (_ & PG & _)).
  destruct (C35_ghost_values D bc' vs' ops WF S' HO) as (a' & b' & c' & ga' & gb' & Q1 & Q2 & Q3 & _ & _ & _ & Q4 & (_ & QG & _)).
  rewrite P1 in N1; injection N1 as ->. rewrite P2 in N2; injection N2 as ->. rewrite P3 in N3; injection N3 as ->. rewrite P4 in N4; injection N4 as ->.
  rewrite Q1 in M1; injection M1 as ->. rewrite Q2 in M2; injection M2 as ->. rewrite Q3 in M3; injection M3 as ->. rewrite Q4 in M4; injection M4 as ->.
  rewrite (PG l t f Hl Hf En), (QG l t f Hl' Hf En). unfold prescribed. rewrite EV. reflexivity.
Qed.
Print Assumptions C37_sides_independent.

(** ** C35: the halo ghosts *)
Lemma loop_entries (f : gentry -> res R) hg idx hn : forall w, (forall i, In i hn -> 0 <= i < zlen hg) ->
  haloghost_loop f hg idx hn w = foldM (fun w e => if negb (g_last e =? -1) && (g_name e =? idx) then do v <- f e; set w (g_last e) v else ret w) (flat_map (nthZ [] hg) hn) w.
Proof.
  induction hn as [|i hn IH]; intros w Hi; [reflexivity|]. cbn [flat_map]. rewrite foldM_app. unfold haloghost_loop. cbn [foldM]. rewrite (get_nthZ []) by (apply Hi; left; reflexivity). cbn [bind].
  rewrite (foldM_range_get (fun w e => if negb (g_last e =? -1) && (g_name e =? idx) then do v <- f e; set w (g_last e) v else ret w)) by reflexivity.
  destruct (foldM _ (nthZ [] hg i) w); cbn [bind]; [apply IH; intros k Hk; apply Hi; right; exact Hk | reflexivity].
Qed.
Lemma entries_writes (f : gentry -> res R) (val : gentry -> R) idx es : forall w,
  (forall e, In e es -> g_last e <> -1 -> g_name e = idx -> 0 <= g_last e < zlen w /\ f e = Ok (val e)) ->
  (forall e e', In e es -> In e' es -> g_last e = g_last e' -> g_last e <> -1 -> g_name e = idx -> g_name e' = idx -> val e = val e') ->
  exists w', foldM (fun w e => if negb (g_last e =? -1) && (g_name e =? idx) then do v <- f e; set w (g_last e) v else ret w) es w = Ok w' /\ zlen w' = zlen w /\
  (forall e, In e es -> g_last e <> -1 -> g_name e = idx -> nthZ 0%R w' (g_last e) = val e) /\
  forall j, 0 <= j -> (forall e, In e es -> g_last e <> -1 -> g_name e = idx -> g_last e <> j) -> nthZ 0%R w' j = nthZ 0%R w j.
Proof.
  induction es as [|e es IH]; intros w HF HV. { exists w. split; [reflexivity|]. split; [reflexivity|]. split; [intros ? []|]. intros; reflexivity. }
  cbn [foldM]. destruct (negb (g_last e =? -1) && (g_name e =? idx)) eqn:C.
  - apply andb_prop in C. destruct C as (C1 & C2). assert (C1' : g_last e <> -1) by (intro X; rewrite X in C1; discriminate C1). assert (C2' : g_name e = idx) by lia.
    destruct (HF e (or_introl eq_refl) C1' C2') as (B & Ef). rewrite Ef. cbn [bind]. rewrite set_upd by exact B. cbn [bind].
    destruct (IH (upd w (g_last e) (val e))) as (w' & E & L & V & O). { intros e' H'. rewrite zlen_upd. apply HF; right; exact H'. } { intros x y Hx Hy; apply HV; right; assumption. }
    rewrite zlen_upd in L. exists w'. split; [exact E|]. split; [exact L|]. split.
    + intros e' [<-|H'] X1 X2; [|apply V; assumption]. destruct (in_dec Z.eq_dec (g_last e) (map g_last (filter (fun x => negb (g_last x =? -1) && (g_name x =? idx)) es))) as [Hin|Hin].
      * apply in_map_iff in Hin. destruct Hin as (y & Ey & Hy). apply filter_In in Hy. destruct Hy as (Hy & Cy). assert (g_last y <> -1 /\ g_name y = idx) as (Y1 & Y2) by lia. rewrite <- Ey, (V y Hy Y1 Y2). apply HV; auto; [right; exact Hy | left; reflexivity].
      * rewrite O; [apply nthZ_upd_eq; exact B | lia|]. intros y Hy Y1 Y2 Ey. apply Hin. apply in_map_iff. exists y. split; [exact Ey|]. apply filter_In. split; [exact Hy | lia].
    + intros j Hj Hn. rewrite O; [|exact Hj | intros y Hy; apply Hn; right; exact Hy]. apply nthZ_upd_neq; [lia | exact Hj | apply Hn; [left; reflexivity | exact C1' | exact C2']].
  - cbn [bind]. destruct (IH w) as (w' & E & L & V & O); [intros; apply HF; [right|..]; assumption | intros x y Hx Hy; apply HV; right; assumption|].
    exists w'. split; [exact E|]. split; [exact L|]. split.
    + intros e' [<-|H'] X1 X2; [|apply V; assumption]. exfalso. lia.
    + intros j Hj Hn. apply O; [exact Hj|]. intros y Hy; apply Hn; right; exact Hy.
Qed.

(** the ghost of a cut-off boundary face gets what the condition of its side prescribes for the halo cell behind it, the others keep
    their value; for neumann (and periodic) and for dirichlet *)
Theorem C35_halo_ghosts : forall hg hn idx (w_halo value w : list R),
  (forall i, In i hn -> 0 <= i < zlen hg) -> hg_agree hg hn ->
  (forall e, hg_entry hg hn e -> g_last e <> -1 -> 0 <= g_last e < zlen w /\ 0 <= g_cell e < zlen w_halo) -> zlen value = zlen w ->
  exists wn wd, haloghost_value_neumann w_halo w hg idx hn = Ok wn /\ haloghost_value_dirichlet value w hg idx hn = Ok wd /\ zlen wn = zlen w /\ zlen wd = zlen w /\
  (forall e, hg_entry hg hn e -> g_last e <> -1 -> g_name e = idx -> nthZ 0%R wn (g_last e) = nthZ 0%R w_halo (g_cell e) /\ nthZ 0%R wd (g_last e) = nthZ 0%R value (g_last e)) /\
  forall j, 0 <= j -> (forall e, hg_entry hg hn e -> g_last e <> -1 -> g_name e = idx -> g_last e <> j) -> nthZ 0%R wn j = nthZ 0%R w j /\ nthZ 0%R wd j = nthZ 0%R w j.
Proof.
  intros hg hn idx w_halo value w HN AG HE HL. assert (IE : forall e, In e (flat_map (nthZ [] hg) hn) <-> hg_entry hg hn e) by (intros e; rewrite in_flat_map; reflexivity).
  unfold haloghost_value_neumann, haloghost_value_dirichlet. rewrite !loop_entries by exact HN.
  destruct (entries_writes (fun e => get w_halo (g_cell e)) (fun e => nthZ 0%R w_halo (g_cell e)) idx (flat_map (nthZ [] hg) hn) w) as (wn & E1 & L1 & V1 & O1).
  { intros e He H1 _. apply IE in He. destruct (HE e He H1) as (B1 & B2). split; [exact B1 | apply get_nthZ; exact B2]. }
  { intros e e' He He' H1 H2 _ _. apply IE in He, He'. destruct (AG e e' He He' H1 H2) as (X & _). rewrite X. reflexivity. }
  destruct (entries_writes (fun e => get value (g_last e)) (fun e => nthZ 0%R value (g_last e)) idx (flat_map (nthZ [] hg) hn) w) as (wd & E2 & L2 & V2 & O2).
  { intros e He H1 _. apply IE in He. destruct (HE e He H1) as (B1 & B2). split; [exact B1 | apply get_nthZ; lia]. }
  { intros e e' He He' H1 H2 _ _. rewrite H1. reflexivity. }
  exists wn, wd. split; [exact E1|]. split; [exact E2|]. split; [exact L1|]. split; [exact L2|]. split.
  - intros e He H1 H2. apply IE in He. split; [apply V1 | apply V2]; assumption.
  - intros j Hj Hn. split; [apply O1 | apply O2]; try exact Hj; intros e He; apply Hn, IE; exact He.
Qed.
Print Assumptions C35_halo_ghosts.

(** the nonslip kernel for halo ghosts reads the halo value at the index of the ghost instead of that of the cell behind it *)
Theorem C35_haloghost_nonslip_refuted : exists hg hn idx w_halo w w', (forall i, In i hn -> 0 <= i < zlen hg) /\ hg_agree hg hn /\
  (forall e, hg_entry hg hn e -> g_last e <> -1 -> 0 <= g_last e < zlen w /\ 0 <= g_cell e < zlen w_halo) /\
  haloghost_value_nonslip w_halo w hg idx hn = Ok w' /\ exists e, hg_entry hg hn e /\ g_last e <> -1 /\ g_name e = idx /\ nthZ 0%R w' (g_last e) <> (- nthZ 0%R w_halo (g_cell e))%R.
Proof.
  exists [[{| g_pt := p0; g_cell := 1; g_name := 3; g_last := 0 |}]], [0], 3, [7%R; 5%R], [0%R], [(-1 * 7)%R].
  assert (HE : forall e, hg_entry [[{| g_pt := p0; g_cell := 1; g_name := 3; g_last := 0 |}]] [0] e -> e = {| g_pt := p0; g_cell := 1; g_name := 3; g_last := 0 |}).
  { intros e (i & [<-|[]] & [<-|[]]). reflexivity. }
  split; [intros i [<-|[]]; split; [discriminate | reflexivity]|]. split; [intros e e' H1 H2; apply HE in H1, H2; subst; auto|].
  split; [intros e H1 _; apply HE in H1; subst; cbn; repeat split; discriminate|]. split; [reflexivity|].
  eexists. split; [exists 0; split; [left; reflexivity | left; reflexivity]|]. cbn [g_last g_name g_cell]. split; [discriminate|]. split; [reflexivity|]. change ((-1 * 7)%R <> (- (5))%R). lra.
Qed.
Print Assumptions C35_haloghost_nonslip_refuted.

(** the slip kernel stores u times the reflected component u', so it is right exactly where u' = 0 or u = 1 *)
Theorem C35_slip_refuted : forall (u_c v_c w : list R) cellid faces normal mesure,
  (forall f, In f faces -> 0 <= f < zlen w /\ 0 <= f < zlen cellid /\ 0 < zlen (nthZ [] cellid f) /\ 0 <= nthZ 0 (nthZ [] cellid f) 0 < zlen u_c /\ 0 <= f < zlen normal /\ 0 <= f < zlen mesure /\
     (nthZ 0 mesure f)%R <> 0%R /\ ((px (nthZ vzero normal f))² + (py (nthZ vzero normal f))² = (nthZ 0 mesure f)²)%R) -> zlen v_c = zlen u_c ->
  exists w', ghost_value_slip u_c v_c w cellid faces normal mesure = Ok w' /\ forall f, In f faces ->
    let c := nthZ 0 (nthZ [] cellid f) 0 in let n := nthZ vzero normal f in let m := nthZ 0%R mesure f in
    nthZ None w' f = Some (nthZ 0 u_c c * reflect_x (nthZ 0 u_c c) (nthZ 0 v_c c) (px n / m) (py n / m))%R.
Proof.
  intros u_c v_c w cellid faces normal mesure HF HV. unfold ghost_value_slip.
  set (sl := fun f => let c := nthZ 0 (nthZ [] cellid f) 0 in match odiv (px (nthZ p0 normal f)) (nthZ 0%R mesure f), odiv (py (nthZ p0 normal f)) (nthZ 0%R mesure f) with
              | Some s0, Some s1 => Some (nthZ 0 u_c c * (nthZ 0 u_c c * (s1 * s1 - s0 * s0) - 2 * nthZ 0 v_c c * s0 * s1))%R
              | _, _ => None end).
  destruct (foldM_writes None (fun i => do c <- get2 cellid i 0; do u <- get u_c c; do v <- get v_c c; do n <- get normal i; do m <- get mesure i;
     ret (match odiv (px n) m, odiv (py n) m with Some s0, Some s1 => Some (u * (u * (s1 * s1 - s0 * s0) - 2 * v * s0 * s1))%R | _, _ => None end)) sl faces (map Some w)) as (w' & E & _ & V).
  { intros f Hf. destruct (HF f Hf) as (H1 & H2 & H3 & H4 & H5 & H6 & _). rewrite zlen_map. split; [exact H1|]. rewrite (get2_nthZ 0) by lia. cbn [bind]. rewrite (get_nthZ 0%R u_c) by lia. cbn [bind]. rewrite (get_nthZ 0%R v_c) by lia. cbn [bind].
    rewrite (get_nthZ p0 normal) by lia. cbn [bind]. rewrite (get_nthZ 0%R mesure) by lia. reflexivity. }
  exists w'. split.
  - rewrite <- E. apply foldM_ext. intros g i _. rewrite !bind_assoc. repeat (match goal with |- bind ?a _ = bind ?a _ => destruct a; cbn [bind]; [|reflexivity] end; rewrite ?bind_assoc). reflexivity.
  - intros f Hf. set (c := nthZ 0 (nthZ [] cellid f) 0). set (n := nthZ vzero normal f). set (m := nthZ 0%R mesure f). rewrite V by (destruct (HF f Hf); lia). rewrite (proj2 (mem_In _ _) Hf). unfold sl. destruct (HF f Hf) as (_ & _ & _ & _ & _ & _ & M0 & NN). fold m in M0, NN |- *. change (nthZ p0 normal f) with n. fold n in NN. fold c.
    unfold odiv. destruct (Req_EM_T m 0) as [X|_]; [contradiction|]. f_equal. unfold reflect_x. unfold Rsqr in NN.
    assert (Q : (px n / m * (px n / m) + py n / m * (py n / m) = 1)%R). { replace (px n / m * (px n / m) + py n / m * (py n / m))%R with ((px n * px n + py n * py n) / (m * m))%R by (field; exact M0). rewrite NN. field. exact M0. }
    set (a := (px n / m)%R) in *. set (b := (py n / m)%R) in *. f_equal. replace (b * b)%R with (1 - a * a)%R by lra. ring.
Qed.
Print Assumptions C35_slip_refuted.

(** C51.  The lists dirichletfaces and neumannfaces are increasing and contain exactly the faces of the dirichlet sides and of the neumann and
    nonslip sides; no face is in both. *)
Theorem C51_face_lists : forall D bc vs v, wf_bcdom D -> bc_known D bc -> dirichlet_first bc -> new_variable D (Some bc) (Some vs) = Ok v ->
  StronglySorted Z.lt (va_dirichletfaces v) /\ StronglySorted Z.lt (va_neumannfaces v) /\
  (forall f, In f (va_dirichletfaces v) <-> 0 <= f < zlen (bd_name D) /\ exists l, In (l, BDirichlet) bc /\ face_name D f = side_label l) /\
  (forall f, In f (va_neumannfaces v) <-> 0 <= f < zlen (bd_name D) /\ exists l, (In (l, BNeumann) bc \/ In (l, BNonslip) bc) /\ face_name D f = side_label l) /\
  forall f, In f (va_dirichletfaces v) -> ~ In f (va_neumannfaces v).
Proof.
  intros D bc vs v WF KN DF HV. pose proof (loop_ok D WF vs bc [] (init_state D) (init_inv D vs) (proj1 KN) (proj2 KN) DF) as HL. cbn [app] in HL. unfold new_variable in HV.
  destruct (forallb (good D vs) bc); [|rewrite HL in HV; discriminate HV]. destruct HL as (s & E & I). rewrite E in HV. cbn [bind] in HV. injection HV as <-. cbn [va_dirichletfaces va_neumannfaces].
  rewrite (i_dir _ _ _ _ I), (i_neu _ _ _ _ I).
  assert (NDF : forall sel : bctype -> bool, NoDup (flat_map (fun e => if sel (snd e) then bc_faces D (fst e) else []) bc)).
  { intros sel. destruct KN as (ND & _). clear - ND WF. induction bc as [|(l, t) r IH]; [constructor|]. cbn [map fst] in ND. inversion ND as [|? ? N1 N2]; subst. cbn [flat_map fst snd]. specialize (IH N2). destruct (sel t); [|exact IH].
    assert (H1 : NoDup (bc_faces D l)) by (apply NoDup_filter, NoDup_range). revert H1. generalize (fun f (H : In f (bc_faces D l)) => H). intros Hsub. assert (DJ : forall f, In f (bc_faces D l) -> ~ In f (flat_map (fun e => if sel (snd e) then bc_faces D (fst e) else []) r)).
    { intros f Hf Hf'. apply in_flat_map in Hf'. destruct Hf' as ((k, u) & Hk & Hf'). cbn [fst snd] in Hf'. destruct (sel u); [|destruct Hf']. assert (X := bc_faces_disjoint D _ _ _ Hf Hf'). subst k. apply N1. apply in_map_iff. exists (l, u). split; [reflexivity | exact Hk]. }
    clear Hsub. induction (bc_faces D l) as [|f fs IHf]; intros H1; [exact IH|]. inversion H1 as [|? ? M1 M2]; subst. cbn [app]. constructor.
    - intros H. apply in_app_or in H. destruct H as [H|H]; [contradiction | exact (DJ f (or_introl eq_refl) H)].
    - apply IHf; [|exact M2]. intros g Hg; apply DJ; right; exact Hg. }
  assert (SD : dir_faces D bc = flat_map (fun e => if (fun t => match t with BDirichlet => true | _ => false end) (snd e) then bc_faces D (fst e) else []) bc) by (unfold dir_faces; apply flat_map_ext; intros (l, t); cbn [fst snd]; destruct t; reflexivity).
  assert (SN : neu_faces D bc = flat_map (fun e => if neu_like (snd e) then bc_faces D (fst e) else []) bc) by (unfold neu_faces; apply flat_map_ext; intros (l, t); cbn [fst snd]; destruct t; reflexivity).
  assert (LT : forall l, NoDup l -> StronglySorted Z.lt (np_sort l)).
  { intros l ND. pose proof (np_sort_sorted l) as S. pose proof (Permutation_NoDup (Permutation_sym (np_sort_perm l)) ND) as ND'. induction S as [|x r S IH HF]; [constructor|]. inversion ND' as [|? ? N1 N2]; subst. constructor; [apply IH; exact N2|].
    rewrite Forall_forall in *. intros y Hy. specialize (HF y Hy). assert (x <> y) by (intros ->; contradiction). lia. }
  assert (ID : forall f, In f (dir_faces D bc) <-> 0 <= f < zlen (bd_name D) /\ exists l, In (l, BDirichlet) bc /\ face_name D f = side_label l).
  { intros f. unfold dir_faces. rewrite in_flat_map. split.
    - intros ((l, t) & Hin & Hf). cbn [fst snd] in Hf. destruct t; try contradiction Hf. apply bc_faces_in in Hf. split; [apply Hf|]. exists l. split; [exact Hin | apply Hf].
    - intros (Hf & l & Hin & En). exists (l, BDirichlet). split; [exact Hin|]. apply bc_faces_in. split; assumption. }
  assert (IN : forall f, In f (neu_faces D bc) <-> 0 <= f < zlen (bd_name D) /\ exists l, (In (l, BNeumann) bc \/ In (l, BNonslip) bc) /\ face_name D f = side_label l).
  { intros f. unfold neu_faces. rewrite in_flat_map. split.
    - intros ((l, t) & Hin & Hf). cbn [fst snd] in Hf. destruct t; try contradiction Hf; apply bc_faces_in in Hf; (split; [apply Hf|]; exists l; split; [auto | apply Hf]).
    - intros (Hf & l & [Hin|Hin] & En); [exists (l, BNeumann) | exists (l, BNonslip)]; (split; [exact Hin|]; apply bc_faces_in; split; assumption). }
  split; [apply LT; rewrite SD; exact (NDF (fun t => match t with BDirichlet => true | _ => false end))|]. split; [apply LT; rewrite SN; apply NDF|]. split; [intros f; rewrite np_sort_In; apply ID|]. split; [intros f; rewrite np_sort_In; apply IN|].
  intros f H1 H2. rewrite np_sort_In in H1, H2. apply ID in H1. apply IN in H2. destruct H1 as (Hf & l & Hl & E1). destruct H2 as (_ & l' & Hl' & E2).
  assert (X : l = l') by (apply (bc_faces_disjoint D l l' f); apply bc_faces_in; split; assumption). subst l'. destruct KN as (ND & _).
  assert (U : forall t, In (l, t) bc -> t = BDirichlet).
  { clear - ND Hl. intros t Ht. induction bc as [|(k, u) r IH]; [destruct Hl|]. cbn [map fst] in ND. inversion ND as [|? ? M1 M2]; subst. destruct Hl as [Hl|Hl], Ht as [Ht|Ht].
    - congruence.
    - injection Hl as -> ->. exfalso; apply M1. apply in_map_iff. exists (l, t). split; [reflexivity | exact Ht].
    - injection Ht as -> ->. exfalso; apply M1. apply in_map_iff. exists (l, BDirichlet). split; [reflexivity | exact Hl].
    - apply IH; assumption. }
  destruct Hl' as [H|H]; discriminate (U _ H).
Qed.
Print Assumptions C51_face_lists.
