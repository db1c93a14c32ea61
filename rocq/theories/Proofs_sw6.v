(** * Proofs_sw6: source term, friction, update, time step; the lake at rest. *)
From Coq Require Import Reals Lra Psatz Permutation ZifyBool Rpower.
From Verif Require Import Py PyLemmas Model_part Model_conn Spec_conn Model_geom Spec_geom Model_interp Spec_interp Model_fvm Spec_fvm Proofs_conn1 Proofs_interp1 Proofs_fvm1 Proofs_fvm2 Model_sw Spec_sw Proofs_sw3 Proofs_sw4 Proofs_sw5.
Open Scope R_scope.

Lemma source_rest w G b hp0 zv0 s0 hp1 zv1 s1 hp2 zv2 s2 :
  0 < hp0 -> 0 < hp1 -> 0 < hp2 -> hp0 + zv0 = q_h w + q_Z w -> hp1 + zv1 = q_h w + q_Z w -> hp2 + zv2 = q_h w + q_Z w ->
  px s0 + px s1 + px s2 = 0 -> py s0 + py s1 + py s2 = 0 -> px s0 * py s1 - px s1 * py s0 <> 0 ->
  source_cell w G b (hp0, zv0, s0) (hp1, zv1, s1) (hp2, zv2, s2) =
  Some (g981 / 2 * (((q_h w + hp0) / 2) ^ 2 * px s0 + ((q_h w + hp1) / 2) ^ 2 * px s1 + ((q_h w + hp2) / 2) ^ 2 * px s2),
        g981 / 2 * (((q_h w + hp0) / 2) ^ 2 * py s0 + ((q_h w + hp1) / 2) ^ 2 * py s1 + ((q_h w + hp2) / 2) ^ 2 * py s2)).
Proof.
  intros P0 P1 P2 Z0 Z1 Z2 Cx Cy Cr. unfold source_cell. cbv zeta.
  set (m0 := hp0 * px s0). set (m1 := hp1 * px s1). set (m2 := hp2 * px s2). set (b0 := hp0 * py s0). set (b1 := hp1 * py s1). set (b2 := hp2 * py s2).
  set (c1 := 0 + _ + _ + _). set (c2 := 0 + _ + _ + _). set (c3 := 3 * q_h w).
  set (delta := m1 * b2 - m2 * b1 - (m0 * b2 - b0 * m2) + (m0 * b1 - b0 * m1)).
  assert (ND : delta <> 0).
  { replace delta with ((px s0 * py s1 - px s1 * py s0) * (hp1 * hp2 + hp0 * hp2 + hp0 * hp1)).
    2:{ unfold delta, m0, m1, m2, b0, b1, b2. replace (px s2) with (- px s0 - px s1) by lra. replace (py s2) with (- py s0 - py s1) by lra. ring. }
    apply Rmult_integral_contrapositive_currified; [exact Cr|]. assert (0 < hp1 * hp2) by (apply Rmult_lt_0_compat; assumption). assert (0 < hp0 * hp2) by (apply Rmult_lt_0_compat; assumption). assert (0 < hp0 * hp1) by (apply Rmult_lt_0_compat; assumption). lra. }
  unfold odiv. destruct (Req_EM_T delta 0) as [E|_]; [contradiction|].
  set (h1 := _ / delta). set (h2 := _ / delta). set (h3 := _ / delta).
  assert (E1 : m0 * h1 + m1 * h2 + m2 * h3 = c1) by (unfold h1, h2, h3, delta in *; field; exact ND).
  assert (E2 : b0 * h1 + b1 * h2 + b2 * h3 = c2) by (unfold h1, h2, h3, delta in *; field; exact ND).
  f_equal. f_equal.
  - transitivity (g981 / 2 * c1); [|unfold c1; field]. rewrite <- E1. unfold m0, m1, m2.
    replace zv0 with (q_h w + q_Z w - hp0) by lra. replace zv1 with (q_h w + q_Z w - hp1) by lra. replace zv2 with (q_h w + q_Z w - hp2) by lra. replace (px s2) with (- px s0 - px s1) by lra. field.
  - transitivity (g981 / 2 * c2); [|unfold c2; field]. rewrite <- E2. unfold b0, b1, b2.
    replace zv0 with (q_h w + q_Z w - hp0) by lra. replace zv1 with (q_h w + q_Z w - hp1) by lra. replace zv2 with (q_h w + q_Z w - hp2) by lra. replace (py s2) with (- py s0 - py s1) by lra. field.
Qed.

(** friction *)
Lemma friction_ok w grav eta time : 0 < q_h w -> 0 <= grav -> 0 <= time -> exists k, 0 < k <= 1 /\ friction_cell w grav eta time = Some {| q_h := q_h w; q_hu := k * q_hu w; q_hv := k * q_hv w; q_hc := q_hc w; q_Z := q_Z w |}.
Proof.
  intros Hh Hg Ht. unfold friction_cell. destruct (Rlt_dec 0 (q_h w)) as [_|N]; [|contradiction]. cbv zeta. set (A := 1 + _).
  assert (HA : 1 <= A).
  { unfold A. assert (0 <= grav * time * eta ^ 2 * sqrt ((q_hu w / q_h w) ^ 2 + (q_hv w / q_h w) ^ 2) / Rpower (q_h w) (4 / 3)); [|lra].
    apply Rmult_le_pos; [|left; apply Rinv_0_lt_compat; unfold Rpower; apply exp_pos]. apply Rmult_le_pos; [|apply sqrt_pos]. apply Rmult_le_pos; [apply Rmult_le_pos; assumption | apply pow2_ge_0]. }
  exists (/ A). split.
  - split; [apply Rinv_0_lt_compat; lra|]. rewrite <- Rinv_1. apply Rinv_le_contravar; lra.
  - unfold odiv. destruct (Req_EM_T A 0) as [E|_]; [lra|]. f_equal. f_equal; unfold Rdiv; ring.
Qed.
Lemma friction_rest w grav eta time : 0 < q_h w -> q_hu w = 0 -> q_hv w = 0 -> friction_cell w grav eta time = Some w.
Proof.
  intros Hh E1 E2. unfold friction_cell. destruct (Rlt_dec 0 (q_h w)) as [_|N]; [|contradiction]. cbv zeta. rewrite E1, E2. replace ((0 / q_h w) ^ 2 + (0 / q_h w) ^ 2) with 0 by (unfold Rdiv; ring). rewrite sqrt_0.
  replace (1 + _) with 1 by (unfold Rdiv; ring). unfold odiv. destruct (Req_EM_T 1 0) as [E|_]; [lra|]. f_equal. destruct w as [a1 a2 a3 a4 a5]. cbn in *. subst. f_equal; field.
Qed.
Lemma all_some_map {T} (l : list T) : all_some (map Some l) = Some l.
Proof. induction l as [|x l IH]; [reflexivity|]. cbn. rewrite IH. reflexivity. Qed.
Lemma friction_lake H l eta time : (forall w, In w l -> at_rest H w) -> all_some (term_friction_SW l g981 eta time) = Some l.
Proof.
  intros HR. unfold term_friction_SW. transitivity (all_some (map Some l)); [|apply all_some_map]. f_equal. apply map_ext_in. intros w Hw. destruct (HR w Hw) as (A1 & A2 & A3 & _). apply friction_rest; assumption.
Qed.
Open Scope Z_scope.

(** one explicit update *)
Lemma update_SW_ok w rez src dis cor wind dt vol : let n := zlen w in zlen rez = n -> zlen src = n -> zlen dis = n -> zlen cor = n -> zlen vol = n ->
  exists new, update_SW w rez src dis cor wind dt vol = Ok new /\ zlen new = n /\
  forall c, 0 <= c < n -> nthZ None new c = match nthZ None rez c, nthZ None src c with
    | Some r, Some s => update_cell (nthZ q5_zero w c) r s (nthZ 0%R dis c) (nthZ (0, 0)%R cor c) wind dt (nthZ 0%R vol c) | _, _ => None end.
Proof.
  intros n H1 H2 H3 H4 H5. unfold update_SW. fold n.
  destruct (mapM_total (fun i => do x <- get w i; do r <- get rez i; do s <- get src i; do d <- get dis i; do c <- get cor i; do v <- get vol i;
    ret (match r, s with Some r, Some s => update_cell x r s d c wind dt v | _, _ => None end)) (range n)) as (new & E).
  { intros i Hi. apply in_range in Hi. rewrite (get_nthZ q5_zero w), (get_nthZ None rez), (get_nthZ None src), (get_nthZ 0%R dis), (get_nthZ (0, 0)%R cor), (get_nthZ 0%R vol) by (rewrite ?H1, ?H2, ?H3, ?H4, ?H5; exact Hi). cbn [bind]. eexists. reflexivity. }
  exists new. split; [exact E|]. pose proof (mapM_zlen _ _ _ E) as Hz. rewrite zlen_range in Hz by (unfold n; apply zlen_nonneg). split; [exact Hz|].
  intros c Hc. pose proof (mapM_nthZ _ _ _ 0 None c E ltac:(rewrite zlen_range by (unfold n; apply zlen_nonneg); exact Hc)) as P. rewrite nthZ_range in P by exact Hc.
  rewrite (get_nthZ q5_zero w), (get_nthZ None rez), (get_nthZ None src), (get_nthZ 0%R dis), (get_nthZ (0, 0)%R cor), (get_nthZ 0%R vol) in P by (rewrite ?H1, ?H2, ?H3, ?H4, ?H5; exact Hc). cbn [bind] in P. injection P as P. symmetry. exact P.
Qed.

Lemma row3 {T} (d : T) l : zlen l = 3 -> l = [nthZ d l 0; nthZ d l 1; nthZ d l 2].
Proof. intros E. destruct l as [|a [|b [|e [|]]]]; try reflexivity; unfold zlen in E; cbn in E; lia. Qed.
Lemma g981_pos : (0 < g981)%R.
Proof. unfold g981. lra. Qed.
Section Lake.
Context (X : fvdata) (mesure : list R) (L : fvlists) (C : swcells) (A : swdata) (H : R).
Context (WF : wf_fvdata 2 X) (WL : wf_lists 2 X L) (WA : wf_swdata X mesure A) (WC : wf_swcells X L C) (LK : lake H L A).
Context (WM : forall f, In f (sw_faces L) -> measures (nthZ vzero (fv_normal X) f) (nthZ 0%R mesure f)).
Let nc := zlen (fv_centerc X).
Let nf := zlen (fv_cellid X).
Lemma side1 w psi gh gc x y : sw_side 1 w psi gh gc x y = w.
Proof. unfold sw_side, reconstruct. destruct w as [a1 a2 a3 a4 a5]. cbn [q_h q_hu q_hv q_hc q_Z]. f_equal; ring. Qed.
Lemma cell_rest c f : 0 <= c < nc -> cell_side 1 X A c f = nthZ q5_zero (sw_c A) c /\ at_rest H (nthZ q5_zero (sw_c A) c).
Proof. intros Hc. split; [apply side1|]. destruct LK as (K1 & _). apply K1, nthZ_In. destruct (wsw_cells _ _ _ WA) as (-> & _). exact Hc. Qed.
Lemma left_rest f : In f (sw_faces L) -> at_rest H (face_left 1 X A f).
Proof. intros Hf. destruct (sw_faces_ok X L WF WL f Hf) as (_ & H0 & _). unfold face_left. destruct (cell_rest (cell0 X f) f H0) as (-> & R). exact R. Qed.
Lemma right_rest f : In f (sw_faces L) -> at_rest H (face_right 1 X A f).
Proof.
  intros Hf. destruct (sw_faces_ok X L WF WL f Hf) as (Hr & H0 & H1). unfold face_right. destruct (fv_label X f =? 0) eqn:E0; [destruct (cell_rest (cell1 X f) f (H1 ltac:(lia))) as (-> & R); exact R|].
  destruct LK as (_ & K2 & K3). destruct (fv_label X f =? 10) eqn:E1.
  - rewrite side1. apply K2, nthZ_In. destruct (wsw_halos _ _ _ WA) as (-> & _). apply (wfv_face _ _ WF f Hr). lia.
  - apply K3. destruct WL as (W1 & _ & W3 & _). unfold sw_faces in Hf. rewrite !in_app_iff in Hf. destruct Hf as [D|[D|D]]; [destruct (W1 f D); lia | destruct (W3 f D); lia | exact D].
Qed.
(** mean depth at the face *)
Definition hmid f : R := ((q_h (face_left 1 X A f) + q_h (face_right 1 X A f)) / 2)%R.
Definition Frest f : q5 := {| q_h := 0; q_hu := g981 * hmid f ^ 2 / 2 * px (nthZ vzero (fv_normal X) f); q_hv := g981 * hmid f ^ 2 / 2 * py (nthZ vzero (fv_normal X) f); q_hc := 0; q_Z := 0 |}%R.
Lemma flux_rest f : In f (sw_faces L) -> sw_flux 1 X mesure A f = Some (Frest f).
Proof.
  intros Hf. destruct (left_rest f Hf) as (L1 & L2 & L3 & L4). destruct (right_rest f Hf) as (R1 & R2 & R3 & R4). unfold sw_flux.
  rewrite (rest_flux g981 (nthZ 0%R mesure f) (nthZ vzero (fv_normal X) f) g981_pos (WM f Hf)) by (first [assumption | congruence]). reflexivity.
Qed.
(** sum over all faces of what leaves c = sum over its three faces *)
Lemma leaves_row (x : Z -> R) c : 0 <= c < nc -> rsum (map (leaves X x c) (sw_faces L)) = rsum (map (fun f => if cell0 X f =? c then x f else (- x f)%R) (nthZ [] (cl_faceid C) c)).
Proof.
  intros Hc. destruct WC as (_ & _ & _ & _ & T). specialize (T c Hc). destruct (tt_faces _ _ _ _ T) as (_ & P).
  transitivity (rsum (map (leaves X x c) (nthZ [] (cl_faceid C) c))).
  - rewrite (rsum_perm _ _ (Permutation_map _ P)), rsum_filter. apply rsum_map_ext. intros f _. destruct ((cell0 X f =? c) || (fv_label X f =? 0) && (cell1 X f =? c)) eqn:E; [reflexivity|].
    unfold leaves. replace (cell0 X f =? c) with false by lia. replace ((fv_label X f =? 0) && (cell1 X f =? c)) with false by lia. ring.
  - apply rsum_map_ext. intros f Hf. pose proof (tt_distinct _ _ _ _ T f Hf) as D. apply (Permutation_in f P) in Hf. apply filter_In in Hf as (_ & E). unfold leaves.
    destruct (cell0 X f =? c) eqn:E0; destruct ((fv_label X f =? 0) && (cell1 X f =? c)) eqn:E1; try ring; exfalso; lia.
Qed.
(** the state on the other side of face f of cell c *)
Definition other c f : q5 := if cell0 X f =? c then face_right 1 X A f else face_left 1 X A f.
Lemma row_face c j : 0 <= c < nc -> 0 <= j < 3 -> let f := nthZ 0 (nthZ [] (cl_faceid C) c) j in In f (sw_faces L) /\ (cell0 X f = c \/ cell0 X f <> c /\ fv_label X f = 0 /\ cell1 X f = c).
Proof.
  intros Hc Hj f. destruct WC as (_ & _ & _ & _ & T). specialize (T c Hc). destruct (tt_faces _ _ _ _ T) as (Z3 & P).
  assert (Hf : In f (nthZ [] (cl_faceid C) c)) by (apply nthZ_In; lia). apply (Permutation_in f P) in Hf. apply filter_In in Hf as (Hf & E). split; [exact Hf|]. lia.
Qed.
Lemma beyond_ok c j : 0 <= c < nc -> 0 <= j < 3 -> let f := nthZ 0 (nthZ [] (cl_faceid C) c) j in beyond_face X C A c j = Ok (q_h (other c f), q_Z (other c f)).
Proof.
  intros Hc Hj f. destruct (row_face c j Hc Hj) as (Hf & Tc). fold f in Hf, Tc. pose proof WC as (C1 & C2 & C3 & C4 & T). specialize (T c Hc). destruct (tt_faces _ _ _ _ T) as (Z3 & _). destruct (tt_rows _ _ _ _ T) as (Z4 & Z5).
  destruct (sw_faces_ok X L WF WL f Hf) as (Hr & H0 & H1). destruct (wfv_len _ _ WF) as (L1 & L2 & L3 & L4 & L5). destruct (wsw_cells _ _ _ WA) as (A1 & _). destruct (wsw_halos _ _ _ WA) as (B1 & _). destruct (wsw_faces _ _ _ WA) as (F1 & _).
  unfold beyond_face, get2. rewrite (get_nthZ []) by (rewrite C1; exact Hc). cbn [bind]. rewrite (get_nthZ 0) by lia. cbn [bind]. fold f. rewrite (get_nthZ 0 (fv_name X)) by (rewrite L1; exact Hr). cbn [bind]. change (nthZ 0 (fv_name X) f) with (fv_label X f).
  unfold other, face_right, face_left. pose proof (tt_neighbour _ _ _ _ T j Hj) as TN. cbv zeta in TN. fold f in TN.
  destruct (fv_label X f =? 10) eqn:E10.
  - replace (fv_label X f =? 0) with false by lia. replace (cell0 X f =? c) with true by lia. rewrite (get_nthZ 0) by (rewrite L4; exact Hr). cbn [bind].
    rewrite (get_nthZ q5_zero) by (rewrite B1; apply (wfv_face _ _ WF f Hr); lia). cbn [bind]. rewrite side1. reflexivity.
  - destruct (fv_label X f =? 0) eqn:E0.
    + rewrite (get_nthZ []) by (rewrite C4; exact Hc). cbn [bind]. rewrite (get_nthZ 0) by lia. cbn [bind]. rewrite TN by lia.
      destruct (cell0 X f =? c) eqn:Ec; (rewrite (get_nthZ q5_zero) by (rewrite A1; first [exact H0 | apply H1; lia])); cbn [bind]; unfold cell_side; rewrite side1; reflexivity.
    + replace (cell0 X f =? c) with true by lia. rewrite (get_nthZ q5_zero) by (rewrite F1; exact Hr). reflexivity.
Qed.
Lemma hmid_other c f : 0 <= c < nc -> (cell0 X f = c \/ cell0 X f <> c /\ fv_label X f = 0 /\ cell1 X f = c) -> hmid f = ((q_h (nthZ q5_zero (sw_c A) c) + q_h (other c f)) / 2)%R.
Proof.
  intros Hc T. unfold hmid, other. destruct T as [E|(E & El & E1)].
  - replace (cell0 X f =? c) with true by lia. unfold face_left at 1. unfold cell_side. rewrite side1, E. reflexivity.
  - replace (cell0 X f =? c) with false by lia. unfold face_right. rewrite El. cbn [Z.eqb]. unfold cell_side at 1. rewrite side1, E1. rewrite Rplus_comm. reflexivity.
Qed.
Lemma source_lake : exists src, term_source_SW X C A = Ok src /\ zlen src = nc /\ forall c, 0 <= c < nc -> nthZ None src c = Some (leaves5 X Frest c (sw_faces L)).
Proof.
  pose proof WC as (C1 & C2 & C3 & C4 & CT). destruct (wsw_cells _ _ _ WA) as (A1 & _).
  set (body := fun i => do w <- get (sw_c A) i; do G <- get (fv_centerc X) i;
    let face j := do hz <- beyond_face X C A i j; do s <- get2 (cl_nf C) i j; ret (fst hz, snd hz, s) in
    do f0 <- face 0; do f1 <- face 1; do f2 <- face 2; do nod <- get2 (cl_nodeid C) i 1; do b <- get (cl_vertex C) nod;
    ret (match source_cell w G b f0 f1 f2 with Some (sx, sy) => Some {| q_h := 0; q_hu := sx; q_hv := sy; q_hc := 0; q_Z := 0 |}%R | None => None end)).
  assert (B : forall c, 0 <= c < nc -> body c = Ok (Some (leaves5 X Frest c (sw_faces L)))).
  { intros c Hc. pose proof (CT c Hc) as T. destruct (tt_rows _ _ _ _ T) as (Z4 & Z5). destruct (tt_nodes _ _ _ _ T) as (N1 & N2). destruct (tt_faces _ _ _ _ T) as (Z3 & _).
    unfold body. rewrite (get_nthZ q5_zero) by (rewrite A1; exact Hc). cbn [bind]. rewrite (get_nthZ vzero) by exact Hc. cbn [bind]. cbv zeta.
    rewrite !(beyond_ok c) by lia. cbn [bind]. unfold get2. rewrite !(get_nthZ [] (cl_nf C)) by (rewrite C3; exact Hc). cbn [bind]. rewrite !(get_nthZ vzero (nthZ [] (cl_nf C) c)) by lia. cbn [bind fst snd].
    rewrite (get_nthZ [] (cl_nodeid C)) by (rewrite C2; exact Hc). cbn [bind]. rewrite (get_nthZ 0) by lia. cbn [bind]. rewrite (get_nthZ vzero (cl_vertex C)) by exact N2. cbn [bind].
    set (f0 := nthZ 0 (nthZ [] (cl_faceid C) c) 0). set (f1 := nthZ 0 (nthZ [] (cl_faceid C) c) 1). set (f2 := nthZ 0 (nthZ [] (cl_faceid C) c) 2).
    destruct (row_face c 0 Hc ltac:(lia)) as (I0 & T0). destruct (row_face c 1 Hc ltac:(lia)) as (I1 & T1). destruct (row_face c 2 Hc ltac:(lia)) as (I2 & T2). fold f0 in I0, T0. fold f1 in I1, T1. fold f2 in I2, T2.
    assert (OR : forall f, In f (sw_faces L) -> at_rest H (other c f)) by (intros f Hf; unfold other; destruct (cell0 X f =? c); [apply right_rest | apply left_rest]; exact Hf).
    destruct (OR f0 I0) as (P0 & _ & _ & Q0). destruct (OR f1 I1) as (P1 & _ & _ & Q1). destruct (OR f2 I2) as (P2 & _ & _ & Q2). destruct (cell_rest c 0 Hc) as (_ & (_ & _ & _ & QC)).
    destruct (tt_closed _ _ _ _ T) as (K1 & K2 & K3).
    rewrite source_rest by (first [assumption | congruence]). f_equal. f_equal. unfold leaves5. cbv zeta. rewrite !(leaves_row _ c Hc). rewrite (row3 0 (nthZ [] (cl_faceid C) c) Z3). fold f0 f1 f2. cbn [map]. rewrite !rsum_cons. change (rsum []) with 0%R.
    rewrite <- (hmid_other c f0 Hc T0), <- (hmid_other c f1 Hc T1), <- (hmid_other c f2 Hc T2). unfold Frest. cbn [q_h q_hu q_hv q_hc q_Z].
    destruct (tt_nf _ _ _ _ T 0 ltac:(lia)) as (G1 & G2). destruct (tt_nf _ _ _ _ T 1 ltac:(lia)) as (G3 & G4). destruct (tt_nf _ _ _ _ T 2 ltac:(lia)) as (G5 & G6). fold f0 in G1, G2. fold f1 in G3, G4. fold f2 in G5, G6.
    assert (E0 : forall (k : R) (p : pt -> R), (p = px \/ p = py) -> (if cell0 X f0 =? c then k * p (nthZ vzero (fv_normal X) f0) else - (k * p (nthZ vzero (fv_normal X) f0)))%R = (k * p (nthZ vzero (nthZ [] (cl_nf C) c) 0%Z))%R).
    { intros k p Hp. destruct (cell0 X f0 =? c) eqn:E; [destruct (G1 ltac:(lia)) as (U1 & U2) | destruct (G2 ltac:(lia)) as (U1 & U2)]; destruct Hp as [-> | ->]; rewrite ?U1, ?U2; ring. }
    assert (E1 : forall (k : R) (p : pt -> R), (p = px \/ p = py) -> (if cell0 X f1 =? c then k * p (nthZ vzero (fv_normal X) f1) else - (k * p (nthZ vzero (fv_normal X) f1)))%R = (k * p (nthZ vzero (nthZ [] (cl_nf C) c) 1%Z))%R).
    { intros k p Hp. destruct (cell0 X f1 =? c) eqn:E; [destruct (G3 ltac:(lia)) as (U1 & U2) | destruct (G4 ltac:(lia)) as (U1 & U2)]; destruct Hp as [-> | ->]; rewrite ?U1, ?U2; ring. }
    assert (E2 : forall (k : R) (p : pt -> R), (p = px \/ p = py) -> (if cell0 X f2 =? c then k * p (nthZ vzero (fv_normal X) f2) else - (k * p (nthZ vzero (fv_normal X) f2)))%R = (k * p (nthZ vzero (nthZ [] (cl_nf C) c) 2%Z))%R).
    { intros k p Hp. destruct (cell0 X f2 =? c) eqn:E; [destruct (G5 ltac:(lia)) as (U1 & U2) | destruct (G6 ltac:(lia)) as (U1 & U2)]; destruct Hp as [-> | ->]; rewrite ?U1, ?U2; ring. }
    rewrite (E0 _ px), (E1 _ px), (E2 _ px), (E0 _ py), (E1 _ py), (E2 _ py) by auto.
    f_equal; try (destruct (cell0 X f0 =? c), (cell0 X f1 =? c), (cell0 X f2 =? c); ring); field. }
  unfold term_source_SW. fold body. rewrite A1. fold nc.
  destruct (mapM_total body (range nc)) as (src & E); [intros c Hc; apply in_range in Hc; eexists; apply B, Hc|].
  exists src. split; [exact E|]. assert (Hn : 0 <= nc) by (unfold nc; apply zlen_nonneg). split; [rewrite (mapM_zlen _ _ _ E); apply zlen_range; exact Hn|].
  intros c Hc. pose proof (mapM_nthZ _ _ _ 0 None c E ltac:(rewrite zlen_range by exact Hn; exact Hc)) as P. rewrite nthZ_range in P by exact Hc. rewrite B in P by exact Hc. injection P as P. symmetry. exact P.
Qed.
End Lake.
