(** * Proofs_sw5: the residual of the convective scheme. *)
From Coq Require Import Reals Lra Psatz Permutation ZifyBool.
From Verif Require Import Py PyLemmas Model_part Model_conn Spec_conn Model_geom Spec_geom Model_interp Spec_interp Model_fvm Spec_fvm Proofs_conn1 Proofs_interp1 Proofs_fvm1 Proofs_fvm2 Model_sw Spec_sw Proofs_sw4.
Open Scope Z_scope.

Lemma add5_at_ok a i v : 0 <= i < zlen a -> add5_at a i v = Ok (upd a i (oadd5 (nthZ None a i) v)).
Proof. intros H. unfold add5_at. rewrite (get_nthZ None) by exact H. cbn [bind]. apply set_upd. exact H. Qed.
Lemma sw_rec_eq order w psi gh gc x y : sw_reconstruct order w psi gh gc (disp 2 y x) = sw_side order w psi gh gc x y.
Proof. unfold sw_reconstruct, sw_side, reconstruct, in_space, disp, vdot, vsub. cbn [Z.eqb Pos.eqb px py pz]. f_equal; ring. Qed.

Section Res.
Context (order : Z) (X : fvdata) (mesure : list R) (L : fvlists) (A : swdata).
Context (WF : wf_fvdata 2 X) (WL : wf_lists 2 X L) (WA : wf_swdata X mesure A).
Let nc := zlen (fv_centerc X).
Let nf := zlen (fv_cellid X).
Let flux := sw_flux order X mesure A.

Lemma cell_side_ok c f : 0 <= c < nc -> sw_cell_side order X A (face_center X f) c = Ok (cell_side order X A c f).
Proof.
  intros Hc. destruct (wsw_cells _ _ _ WA) as (A1 & A2 & A3 & A4). unfold sw_cell_side.
  rewrite (get_nthZ q5_zero) by (rewrite A1; exact Hc). cbn [bind]. rewrite (get_nthZ vzero) by exact Hc. cbn [bind]. rewrite (get_nthZ vzero) by (rewrite A2; exact Hc). cbn [bind]. rewrite (get_nthZ vzero) by (rewrite A3; exact Hc). cbn [bind]. rewrite (get_nthZ 0%R) by (rewrite A4; exact Hc). cbn [bind].
  rewrite sw_rec_eq. reflexivity.
Qed.

(** the effect of one face on cell c *)
Definition face_effect (s s' : list (option q5)) (f : Z) : Prop :=
  zlen s' = nc /\ forall c, 0 <= c < nc ->
    (~ touches_face X c f -> nthZ None s' c = nthZ None s c) /\
    (touches_face X c f -> flux f = None -> nthZ None s' c = None) /\
    (nthZ None s c = None -> nthZ None s' c = None) /\
    (forall a F, nthZ None s c = Some a -> flux f = Some F -> nthZ None s' c = Some (q5_add a (q5_opp (leaves5 X (fun _ => F) c [f])))).
Lemma leaves5_one F c f : leaves5 X (fun _ => F) c [f] = q5_add (if cell0 X f =? c then F else q5_zero) (q5_opp (if (fv_label X f =? 0) && (cell1 X f =? c) then F else q5_zero)).
Proof.
  unfold leaves5, q5_add, q5_opp, leaves. cbn [map]. rewrite !rsum_cons. change (rsum []) with 0%R. destruct (cell0 X f =? c), ((fv_label X f =? 0) && (cell1 X f =? c)); cbn [q_h q_hu q_hv q_hc q_Z q5_zero]; f_equal; ring.
Qed.
Lemma q5_add_zero a : q5_add a q5_zero = a.
Proof. destruct a. unfold q5_add, q5_zero. cbn. f_equal; ring. Qed.
Lemma oadd5_None a : oadd5 a None = None.
Proof. destruct a; reflexivity. Qed.
Ltac q5r := unfold q5_add, q5_opp, q5_zero; cbn [q_h q_hu q_hv q_hc q_Z]; f_equal; ring.

Lemma one_side s f : fv_label X f <> 0 -> 0 <= cell0 X f < nc -> zlen s = nc -> exists s', add5_at s (cell0 X f) (oopp5 (flux f)) = Ok s' /\ face_effect s s' f.
Proof.
  intros Hl Hc Hs. rewrite add5_at_ok by (rewrite Hs; exact Hc). eexists. split; [reflexivity|]. split; [rewrite zlen_upd; exact Hs|]. intros c Hcc.
  assert (T : touches_face X c f <-> cell0 X f = c) by (unfold touches_face; split; [intros [?|(? & _)]; [assumption | contradiction] | auto]).
  destruct (Z.eq_dec (cell0 X f) c) as [E|E].
  - subst c. rewrite nthZ_upd_eq by (rewrite Hs; exact Hc). split; [|split; [|split]].
    + intros N. exfalso. apply N, T. reflexivity.
    + intros _ EN. rewrite EN. apply oadd5_None.
    + intros ->. reflexivity.
    + intros a F -> ->. cbn [oopp5 oadd5]. rewrite leaves5_one, Z.eqb_refl. replace (fv_label X f =? 0) with false by lia. cbn [andb]. f_equal. q5r.
  - rewrite nthZ_upd_neq by (try rewrite Hs; first [lia | exact Hc | congruence]). split; [|split; [|split]].
    + reflexivity.
    + intros Tc. exfalso. apply E, T, Tc.
    + auto.
    + intros a F -> _. rewrite leaves5_one. replace (cell0 X f =? c) with false by lia. replace (fv_label X f =? 0) with false by lia. cbn [andb]. f_equal. symmetry. destruct a; q5r.
Qed.
Lemma two_sides5 s f : fv_label X f = 0 -> 0 <= cell0 X f < nc -> 0 <= cell1 X f < nc -> zlen s = nc ->
  exists s', (do s1 <- add5_at s (cell0 X f) (oopp5 (flux f)); add5_at s1 (cell1 X f) (flux f)) = Ok s' /\ face_effect s s' f.
Proof.
  intros Hl H0 H1 Hs. rewrite add5_at_ok by (rewrite Hs; exact H0). cbn [bind]. rewrite add5_at_ok by (rewrite zlen_upd, Hs; exact H1). eexists. split; [reflexivity|]. split; [rewrite !zlen_upd; exact Hs|]. intros c Hcc.
  set (s1 := upd s (cell0 X f) (oadd5 (nthZ None s (cell0 X f)) (oopp5 (flux f)))).
  assert (E1 : nthZ None s1 c = if cell0 X f =? c then oadd5 (nthZ None s c) (oopp5 (flux f)) else nthZ None s c).
  { unfold s1. destruct (cell0 X f =? c) eqn:Q; [replace c with (cell0 X f) by lia; apply nthZ_upd_eq; lia | apply nthZ_upd_neq; lia]. }
  assert (E2 : nthZ None (upd s1 (cell1 X f) (oadd5 (nthZ None s1 (cell1 X f)) (flux f))) c = if cell1 X f =? c then oadd5 (nthZ None s1 c) (flux f) else nthZ None s1 c).
  { destruct (cell1 X f =? c) eqn:Q; [replace c with (cell1 X f) by lia; apply nthZ_upd_eq; unfold s1; rewrite zlen_upd; lia | apply nthZ_upd_neq; unfold s1; rewrite ?zlen_upd; lia]. }
  rewrite E2, E1. clear E1 E2. unfold touches_face.
  assert (B0 : (cell0 X f =? c) = true \/ (cell0 X f =? c) = false) by (destruct (cell0 X f =? c); auto).
  assert (B1 : (cell1 X f =? c) = true \/ (cell1 X f =? c) = false) by (destruct (cell1 X f =? c); auto).
  split; [|split; [|split]].
  - intros N. replace (cell0 X f =? c) with false by lia. replace (cell1 X f =? c) with false by lia. reflexivity.
  - intros T EN. rewrite EN. cbn [oopp5]. rewrite !oadd5_None. destruct (cell0 X f =? c) eqn:Q0, (cell1 X f =? c) eqn:Q1; try reflexivity. exfalso. lia.
  - intros ->. destruct (cell0 X f =? c), (cell1 X f =? c); reflexivity.
  - intros a F -> ->. rewrite leaves5_one, Hl. cbn [Z.eqb andb oopp5 oadd5]. destruct (cell0 X f =? c), (cell1 X f =? c); cbn [oadd5]; f_equal; destruct a; q5r.
Qed.

Lemma flux_inner f : 0 <= f < nf -> fv_label X f = 0 -> forall s, zlen s = nc -> exists s', sw_inner order X mesure A s f = Ok s' /\ face_effect s s' f.
Proof.
  intros Hf Hl s Hs. destruct (wfv_len _ _ WF) as (L1 & L2 & L3 & L4 & L5). destruct (wfv_face _ _ WF f Hf) as (R1 & R2 & R3 & _). specialize (R3 (or_introl Hl)). destruct (wsw_faces _ _ _ WA) as (F1 & F2).
  destruct (two_sides5 s f Hl R2 R3 Hs) as (s' & E & P). exists s'. split; [|exact P]. rewrite <- E. unfold sw_inner, get2.
  rewrite (get_nthZ []) by exact Hf. cbn [bind]. rewrite !(get_nthZ 0) by (rewrite R1; lia). cbn [bind]. change (nthZ 0 (nthZ [] (fv_cellid X) f) 0) with (cell0 X f). change (nthZ 0 (nthZ [] (fv_cellid X) f) 1) with (cell1 X f).
  rewrite (get_nthZ vzero) by (rewrite L2; exact Hf). cbn [bind]. rewrite (get_nthZ 0%R) by (rewrite F2; exact Hf). cbn [bind]. rewrite (get_nthZ vzero (fv_centerf X)) by (rewrite L3; exact Hf). cbn [bind].
  change (nthZ vzero (fv_centerf X) f) with (face_center X f). rewrite !cell_side_ok by assumption. cbn [bind]. unfold flux, sw_flux, face_left, face_right. rewrite Hl. reflexivity.
Qed.
Lemma flux_halo f : 0 <= f < nf -> fv_label X f = 10 -> forall s, zlen s = nc -> exists s', sw_halo_face order X mesure A s f = Ok s' /\ face_effect s s' f.
Proof.
  intros Hf Hl s Hs. destruct (wfv_len _ _ WF) as (L1 & L2 & L3 & L4 & L5). destruct (wfv_face _ _ WF f Hf) as (R1 & R2 & _ & R4). specialize (R4 Hl). destruct (wsw_faces _ _ _ WA) as (F1 & F2). destruct (wsw_halos _ _ _ WA) as (H1 & H2 & H3 & H4).
  destruct (one_side s f ltac:(lia) R2 Hs) as (s' & E & P). exists s'. split; [|exact P]. rewrite <- E. unfold sw_halo_face, get2.
  rewrite (get_nthZ []) by exact Hf. cbn [bind]. rewrite !(get_nthZ 0) by (rewrite R1; lia). cbn [bind]. change (nthZ 0 (nthZ [] (fv_cellid X) f) 0) with (cell0 X f). rewrite (get_nthZ 0) by (rewrite L4; exact Hf). cbn [bind].
  rewrite (get_nthZ vzero) by (rewrite L2; exact Hf). cbn [bind]. rewrite (get_nthZ 0%R) by (rewrite F2; exact Hf). cbn [bind]. rewrite (get_nthZ vzero (fv_centerf X)) by (rewrite L3; exact Hf). cbn [bind].
  change (nthZ vzero (fv_centerf X) f) with (face_center X f). rewrite !cell_side_ok by assumption. cbn [bind].
  rewrite (get_nthZ q5_zero) by (rewrite H1; exact R4). cbn [bind]. rewrite (get_nthZ vzero) by exact R4. cbn [bind]. rewrite (get_nthZ vzero) by (rewrite H2; exact R4). cbn [bind]. rewrite (get_nthZ vzero) by (rewrite H3; exact R4). cbn [bind]. rewrite (get_nthZ 0%R) by (rewrite H4; exact R4). cbn [bind].
  rewrite sw_rec_eq. unfold flux, sw_flux, face_left, face_right. rewrite Hl. reflexivity.
Qed.
Lemma flux_boundary f : 0 <= f < nf -> 1 <= fv_label X f <= 4 -> forall s, zlen s = nc -> exists s', sw_boundary order X mesure A s f = Ok s' /\ face_effect s s' f.
Proof.
  intros Hf Hl s Hs. destruct (wfv_len _ _ WF) as (L1 & L2 & L3 & L4 & L5). destruct (wfv_face _ _ WF f Hf) as (R1 & R2 & _). destruct (wsw_faces _ _ _ WA) as (F1 & F2).
  destruct (one_side s f ltac:(lia) R2 Hs) as (s' & E & P). exists s'. split; [|exact P]. rewrite <- E. unfold sw_boundary, get2.
  rewrite (get_nthZ []) by exact Hf. cbn [bind]. rewrite !(get_nthZ 0) by (rewrite R1; lia). cbn [bind]. change (nthZ 0 (nthZ [] (fv_cellid X) f) 0) with (cell0 X f).
  rewrite (get_nthZ vzero) by (rewrite L2; exact Hf). cbn [bind]. rewrite (get_nthZ 0%R) by (rewrite F2; exact Hf). cbn [bind]. rewrite (get_nthZ vzero (fv_centerf X)) by (rewrite L3; exact Hf). cbn [bind].
  change (nthZ vzero (fv_centerf X) f) with (face_center X f). rewrite !cell_side_ok by assumption. cbn [bind]. rewrite (get_nthZ q5_zero) by (rewrite F1; exact Hf). cbn [bind].
  unfold flux, sw_flux, face_left, face_right. replace (fv_label X f =? 0) with false by lia. replace (fv_label X f =? 10) with false by lia. reflexivity.
Qed.

(** what the processed faces have done *)
Definition done_ok (done : list Z) (s : list (option q5)) : Prop :=
  zlen s = nc /\ forall c, 0 <= c < nc ->
    (forall F, (forall f, In f done -> touches_face X c f -> flux f = Some (F f)) -> nthZ None s c = Some (q5_opp (leaves5 X F c done))) /\
    ((exists f, In f done /\ touches_face X c f /\ flux f = None) -> nthZ None s c = None).
Lemma leaves5_app F c l l' : leaves5 X F c (l ++ l') = q5_add (leaves5 X F c l) (leaves5 X F c l').
Proof. unfold leaves5, q5_add. cbv zeta. cbn [q_h q_hu q_hv q_hc q_Z]. rewrite !map_app, !rsum_app. reflexivity. Qed.
Lemma leaves5_out F c f : ~ touches_face X c f -> leaves5 X F c [f] = q5_zero.
Proof.
  intros N. unfold touches_face in N. unfold leaves5, leaves. cbn [map]. rewrite !rsum_cons. change (rsum []) with 0%R. replace (cell0 X f =? c) with false by lia. replace ((fv_label X f =? 0) && (cell1 X f =? c)) with false by lia. unfold q5_zero. f_equal; ring.
Qed.
Lemma done_step done s f s' : done_ok done s -> face_effect s s' f -> done_ok (done ++ [f]) s'.
Proof.
  intros (Hs & D) (Hs' & E). split; [exact Hs'|]. intros c Hc. destruct (D c Hc) as (D1 & D2). destruct (E c Hc) as (E1 & E2 & E3 & E4). split.
  - intros F HF. assert (S0 : nthZ None s c = Some (q5_opp (leaves5 X F c done))) by (apply D1; intros g Hg Tg; apply HF; [apply in_or_app; left; exact Hg | exact Tg]).
    rewrite leaves5_app. destruct (touches_face_dec X c f) as [T|N].
    + rewrite (E4 _ _ S0 (HF f ltac:(apply in_or_app; right; left; reflexivity) T)). f_equal. change (leaves5 X (fun _ => F f) c [f]) with (leaves5 X F c [f]). q5r.
    + rewrite (E1 N), S0, (leaves5_out F c f N). f_equal. q5r.
  - intros (g & Hg & Tg & Ng). apply in_app_or in Hg as [Hg|[<-|[]]]; [apply E3, D2; exists g; auto | apply E2; assumption].
Qed.
Lemma fold_done step l : (forall f, In f l -> forall s, zlen s = nc -> exists s', step s f = Ok s' /\ face_effect s s' f) ->
  forall done s, done_ok done s -> exists s', foldM step l s = Ok s' /\ done_ok (done ++ l) s'.
Proof.
  induction l as [|f l IH]; intros H done s D; cbn [foldM]; [exists s; rewrite app_nil_r; split; [reflexivity | exact D]|].
  destruct (H f (or_introl eq_refl) s (proj1 D)) as (s1 & E & P). rewrite E. cbn [bind].
  destruct (IH (fun g Hg => H g (or_intror Hg)) (done ++ [f]) s1 (done_step _ _ _ _ D P)) as (s2 & E2 & D2). exists s2. split; [exact E2|]. rewrite <- app_assoc in D2. exact D2.
Qed.
Lemma residual_ok : exists rez, convective_SW order X mesure L A nc = Ok rez /\ done_ok (sw_faces L) rez.
Proof.
  destruct WL as (W1 & _ & W3 & W4). unfold convective_SW.
  assert (D0 : done_ok [] (zeros_like (Some q5_zero) nc)).
  { split; [apply zlen_zeros_like; unfold nc; apply zlen_nonneg|]. intros c Hc. split; [|intros (f & [] & _)]. intros F _. rewrite nthZ_zeros_like by exact Hc. f_equal. unfold leaves5. cbn [map]. change (rsum []) with 0%R. q5r. }
  destruct (fold_done (sw_inner order X mesure A) (ls_inner L)) with (done := @nil Z) (s := zeros_like (Some q5_zero) nc) as (s1 & E1 & D1); [intros f Hf; destruct (W1 f Hf); apply flux_inner; assumption | exact D0|].
  rewrite E1. cbn [bind app] in *.
  destruct (fold_done (sw_halo_face order X mesure A) (ls_halo L)) with (done := ls_inner L) (s := s1) as (s2 & E2 & D2); [intros f Hf; destruct (W3 f Hf); apply flux_halo; assumption | exact D1|].
  rewrite E2. cbn [bind].
  destruct (fold_done (sw_boundary order X mesure A) (ls_boundary L)) with (done := ls_inner L ++ ls_halo L) (s := s2) as (s3 & E3 & D3); [intros f Hf; destruct (W4 f Hf); apply flux_boundary; [assumption | lia] | exact D2|].
  exists s3. split; [exact E3|]. unfold sw_faces. rewrite app_assoc. exact D3.
Qed.
Lemma sw_faces_ok f : In f (sw_faces L) -> 0 <= f < nf /\ 0 <= cell0 X f < nc /\ (fv_label X f = 0 -> 0 <= cell1 X f < nc).
Proof.
  intros Hf. assert (Hr : 0 <= f < nf). { destruct WL as (W1 & _ & W3 & W4). unfold sw_faces in Hf. rewrite !in_app_iff in Hf. destruct Hf as [H|[H|H]]; [apply (W1 f H) | apply (W3 f H) | apply (W4 f H)]. }
  split; [exact Hr|]. apply (face_cells 2 X WF f Hr).
Qed.
Lemma outer_sw : filter (fun f => negb (fv_label X f =? 0)) (sw_faces L) = ls_halo L ++ ls_boundary L.
Proof.
  destruct WL as (W1 & _ & W3 & W4). unfold sw_faces. rewrite filter_app.
  replace (filter (fun f => negb (fv_label X f =? 0)) (ls_inner L)) with (@nil Z).
  2:{ symmetry. clear - W1. induction (ls_inner L) as [|f l IH]; [reflexivity|]. cbn [filter]. destruct (W1 f (or_introl eq_refl)) as (_ & ->). cbn. apply IH. intros g Hg. apply W1. right. exact Hg. }
  cbn [app]. assert (H : forall f, In f (ls_halo L ++ ls_boundary L) -> fv_label X f <> 0) by (intros f Hf; apply in_app_or in Hf as [Hf|Hf]; [destruct (W3 f Hf) | destruct (W4 f Hf)]; lia).
  clear - H. induction (ls_halo L ++ ls_boundary L) as [|f l IH]; [reflexivity|]. cbn [filter]. replace (fv_label X f =? 0) with false by (symmetry; apply Z.eqb_neq, H; left; reflexivity). cbn [negb]. f_equal. apply IH. intros g Hg. apply H. right. exact Hg.
Qed.
Lemma leaves5_total F : sum5 (fun c => leaves5 X F c (sw_faces L)) (range nc) = sum5 F (ls_halo L ++ ls_boundary L).
Proof.
  assert (P : forall x : q5 -> R, rsum (map (fun c => rsum (map (leaves X (fun f => x (F f)) c) (sw_faces L))) (range nc)) = rsum (map (fun f => x (F f)) (ls_halo L ++ ls_boundary L))).
  { intros x. rewrite <- outer_sw. apply residual_total. intros f Hf. apply sw_faces_ok, Hf. }
  unfold sum5, leaves5. cbv zeta. cbn [q_h q_hu q_hv q_hc q_Z]. rewrite (P q_h), (P q_hu), (P q_hv), (P q_hc), (P q_Z). reflexivity.
Qed.
End Res.
