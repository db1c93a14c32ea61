(** * Proofs_interp4: diamond gradient, limiter, face-to-cell mean (C26-C28). *)
From Verif Require Import Py PyLemmas Model_part Model_conn Spec_conn Proofs_conn1 Proofs_conn2 Model_geom Spec_geom Proofs_geom1 Model_interp Spec_interp Proofs_interp1 Proofs_interp2.
From Coq Require Import Permutation Lra Psatz ZifyBool.
Open Scope Z_scope.

Section Face.
Context (dim : Z) (G : facedata) (WF : wf_facedata dim G).
Notation nf := (zlen (fd_cellid G)).

Lemma right_center_ok i : 0 <= i < nf -> right_center dim G i = Ok (fst (face_other dim G i)).
Proof.
  intros Hi. destruct (wfa_len _ _ WF) as (L1 & L2 & L3 & L4 & L5 & L6). destruct (wfa_face _ _ WF i Hi) as (R1 & R2 & R3 & R4 & R5 & R6). cbv zeta in *.
  unfold right_center, face_other. rewrite (get_nthZ 0) by lia. cbn [bind]. unfold get2. rewrite (get_nthZ []) by lia. cbn [bind]. rewrite (get_nthZ 0) by lia. cbn [bind].
  set (l := nthZ 0 (fd_name G) i) in *. destruct (l =? 0) eqn:E0; [rewrite (get_nthZ vzero) by lia; reflexivity|].
  pose proof (axis_image dim l) as A. destruct (is_periodic dim l) eqn:EP.
  - destruct A as (f & -> & Hf). specialize (R5 (or_intror eq_refl)). rewrite (get_nthZ vzero) by lia. cbn [bind]. rewrite (get_nthZ vzero) by lia. cbn [bind]. rewrite Hf. reflexivity.
  - rewrite A. destruct (l =? 10) eqn:E1; [|rewrite (get_nthZ vzero) by lia; reflexivity]. rewrite (get_nthZ 0) by lia. cbn [bind]. rewrite (get_nthZ vzero) by lia. reflexivity.
Qed.
Lemma nodes_rows i : 0 <= i < nf -> exists r, nthZ [] (fd_nodes G) i = r /\ zlen r = dim /\ forall k, In k r -> 0 <= k < zlen (fd_vertex G).
Proof. intros Hi. destruct (wfa_face _ _ WF i Hi) as (_ & _ & R3 & R4 & _). eauto. Qed.

Definition dia2 (x1 x2 v1 v2 n : pt) : diamond :=
  let f1 := disp 2 v1 x1 in let f2 := disp 2 x2 v1 in let f3 := disp 2 v2 x2 in let f4 := disp 2 x1 v2 in
  let air := (1/2 * ((px x2 - px x1) * (py v2 - py v1) + (px v1 - px v2) * (py x2 - py x1)))%R in
  let param fa fb := match odiv 1 (2 * air) with Some k => Some (k * ((py fa + py fb) * px n - (px fa + px fb) * py n))%R | None => None end in
  {| di_f1 := f1; di_f2 := f2; di_f3 := f3; di_f4 := f4; di_air := air;
     di_p1 := param f1 f2; di_p2 := param f2 f3; di_p3 := param f3 f4; di_p4 := param f4 f1 |}.
Definition dia3 (x1 x2 x3 v1 v2 n : pt) : diamond :=
  let s1 := psub v2 x2 in let s2 := psub x3 x2 in let s3 := psub v1 x2 in
  let n1 := padd (pscal (1/2) (pcross s1 s2)) (pscal (1/2) (pcross s2 s3)) in
  let s4 := psub v2 x3 in let s5 := psub x1 x3 in let s6 := psub v1 x3 in
  let n2 := padd (pscal (1/2) (pcross s4 s5)) (pscal (1/2) (pcross s5 s6)) in
  let air := pdot n (psub v2 v1) in
  {| di_f1 := n1; di_f2 := n2; di_f3 := p0; di_f4 := p0; di_air := air;
     di_p1 := odiv (pdot n1 n) air; di_p2 := odiv (pdot n2 n) air; di_p3 := odiv (pdot n n) air; di_p4 := Some 0%R |}.
Definition xnode (i j : Z) : pt := at_node (fd_vertex G) (nthZ 0 (nthZ [] (fd_nodes G) i) j).
Definition dia (i : Z) : diamond :=
  let v1 := face_left G i in let v2 := fst (face_other dim G i) in let n := nthZ vzero (fd_normal G) i in
  if dim =? 2 then dia2 (xnode i 0) (xnode i 1) v1 v2 n else dia3 (xnode i 0) (xnode i 1) (xnode i 2) v1 v2 n.

Lemma node_get i j : 0 <= i < nf -> 0 <= j < dim -> get2 (fd_nodes G) i j = Ok (nthZ 0 (nthZ [] (fd_nodes G) i) j) /\ 0 <= nthZ 0 (nthZ [] (fd_nodes G) i) j < zlen (fd_vertex G) /\ get (fd_vertex G) (nthZ 0 (nthZ [] (fd_nodes G) i) j) = Ok (xnode i j).
Proof.
  intros Hi Hj. destruct (wfa_len _ _ WF) as (L1 & _). destruct (wfa_face _ _ WF i Hi) as (_ & _ & R3 & R4 & _).
  assert (HR : 0 <= nthZ 0 (nthZ [] (fd_nodes G) i) j < zlen (fd_vertex G)) by (apply R4, nthZ_In; lia).
  split; [|split; [exact HR | apply get_nthZ; exact HR]]. unfold get2. rewrite (get_nthZ []) by lia. cbn [bind]. apply get_nthZ. lia.
Qed.
Lemma left_get i : 0 <= i < nf -> get2 (fd_cellid G) i 0 = Ok (nthZ 0 (nthZ [] (fd_cellid G) i) 0) /\ get (fd_centerc G) (nthZ 0 (nthZ [] (fd_cellid G) i) 0) = Ok (face_left G i).
Proof.
  intros Hi. destruct (wfa_face _ _ WF i Hi) as (R1 & R2 & _). split; [|apply get_nthZ; exact R2]. unfold get2. rewrite (get_nthZ []) by lia. cbn [bind]. apply get_nthZ. lia.
Qed.
Lemma dia_ok i : 0 <= i < nf -> (if dim =? 2 then diamond2 G else diamond3 G) i = Ok (dia i).
Proof.
  intros Hi. destruct (wfa_len _ _ WF) as (L1 & L2 & L3 & L4 & L5 & L6). destruct (left_get i Hi) as (Lg & Lc). pose proof (right_center_ok i Hi) as RC. unfold dia.
  destruct (wfa_dim _ _ WF) as [Ed|Ed].
  - replace (dim =? 2) with true by lia. destruct (node_get i 0 Hi ltac:(lia)) as (A1 & _ & A2). destruct (node_get i 1 Hi ltac:(lia)) as (B1 & _ & B2).
    unfold diamond2. rewrite Lg. cbn [bind]. rewrite A1. cbn [bind]. rewrite B1. cbn [bind]. rewrite A2. cbn [bind]. rewrite B2. cbn [bind]. rewrite Lc. cbn [bind].
    rewrite <- Ed at 1. rewrite RC. cbn [bind]. rewrite (get_nthZ vzero) by lia. cbn [bind]. reflexivity.
  - replace (dim =? 2) with false by lia. destruct (node_get i 0 Hi ltac:(lia)) as (A1 & _ & A2). destruct (node_get i 1 Hi ltac:(lia)) as (B1 & _ & B2). destruct (node_get i 2 Hi ltac:(lia)) as (C1 & _ & C2).
    unfold diamond3. rewrite Lg. cbn [bind]. rewrite A1. cbn [bind]. rewrite B1. cbn [bind]. rewrite C1. cbn [bind]. rewrite Lc. cbn [bind]. rewrite <- Ed at 1. rewrite RC. cbn [bind].
    rewrite A2. cbn [bind]. rewrite B2. cbn [bind]. rewrite C2. cbn [bind]. rewrite (get_nthZ vzero) by lia. cbn [bind]. reflexivity.
Qed.
Lemma face_info_ok : face_gradient_info dim G = Ok (map dia (range nf)).
Proof. unfold face_gradient_info. apply mapM_ok. intros i Hi. apply in_range in Hi. rewrite <- dia_ok by exact Hi. destruct (dim =? 2); reflexivity. Qed.

Context (W : values) (w_node : list R) (L : facelists) (LO : lists_ok dim G L).
Context (HWc : zlen (w_c W) = zlen (fd_centerc G)) (HWg : zlen (w_ghost W) = nf) (HWh : zlen (w_halo W) = zlen (fd_centerh G)) (HWn : zlen w_node = zlen (fd_vertex G)).
Definition wnode (i j : Z) : R := nthZ 0%R w_node (nthZ 0 (nthZ [] (fd_nodes G) i) j).
Definition fgrad (i : Z) (vr : R) : option pt :=
  let d := dia i in let vl := left_value G W i in
  if dim =? 2 then
    let vi1 := wnode i 0 in let vi2 := wnode i 1 in
    match odiv 1 (2 * di_air d), odiv (-1) (2 * di_air d) with
    | Some k, Some k' =>
      Some (P3 (k * ((vi1 + vl) * py (di_f1 d) + (vl + vi2) * py (di_f2 d) + (vi2 + vr) * py (di_f3 d) + (vr + vi1) * py (di_f4 d)))
               (k' * ((vi1 + vl) * px (di_f1 d) + (vl + vi2) * px (di_f2 d) + (vi2 + vr) * px (di_f3 d) + (vr + vi1) * px (di_f4 d))) 0)
    | _, _ => None end
  else
    let comp c := odiv (c (di_f1 d) * (wnode i 0 - wnode i 2) + c (di_f2 d) * (wnode i 1 - wnode i 2) + c (nthZ vzero (fd_normal G) i) * (vr - vl)) (di_air d) in
    match comp px, comp py, comp pz with Some gx, Some gy, Some gz => Some (P3 gx gy gz) | _, _, _ => None end.
Lemma face_grad_ok i vr : 0 <= i < nf -> (if dim =? 2 then face_grad2 else face_grad3) G (map dia (range nf)) W w_node i vr = Ok (fgrad i vr).
Proof.
  intros Hi. destruct (wfa_len _ _ WF) as (L1 & L2 & L3 & L4 & L5 & L6). destruct (left_get i Hi) as (Lg & Lc). destruct (wfa_face _ _ WF i Hi) as (R1 & R2 & _).
  assert (LV : get (w_c W) (nthZ 0 (nthZ [] (fd_cellid G) i) 0) = Ok (left_value G W i)) by (apply get_nthZ; lia).
  assert (LN : forall j, 0 <= j < dim -> get w_node (nthZ 0 (nthZ [] (fd_nodes G) i) j) = Ok (wnode i j)) by (intros j Hj; destruct (node_get i j Hi Hj) as (_ & HR & _); apply get_nthZ; lia).
  unfold fgrad. destruct (wfa_dim _ _ WF) as [Ed|Ed].
  - replace (dim =? 2) with true by lia. destruct (node_get i 0 Hi ltac:(lia)) as (A1 & _ & A2). destruct (node_get i 1 Hi ltac:(lia)) as (B1 & _ & B2).
    unfold face_grad2. rewrite Lg. cbn [bind]. rewrite A1. cbn [bind]. rewrite B1. cbn [bind]. rewrite !LN by lia. cbn [bind]. rewrite LV. cbn [bind]. rewrite get_map_range by lia. reflexivity.
  - replace (dim =? 2) with false by lia. destruct (node_get i 0 Hi ltac:(lia)) as (A1 & _ & A2). destruct (node_get i 1 Hi ltac:(lia)) as (B1 & _ & B2). destruct (node_get i 2 Hi ltac:(lia)) as (C1 & _ & C2).
    unfold face_grad3. rewrite Lg. cbn [bind]. rewrite A1. cbn [bind]. rewrite B1. cbn [bind]. rewrite C1. cbn [bind]. rewrite !LN by lia. cbn [bind]. rewrite LV. cbn [bind]. rewrite get_map_range by lia. cbn [bind]. rewrite (get_nthZ vzero) by lia. reflexivity.
Qed.

(** the five loops *)
Definition vright (i : Z) : R := value_at W (snd (face_other dim G i)).
Lemma loop_ok (f : list (option pt) -> Z -> res (list (option pt))) l g :
  (forall g i, In i l -> zlen g = nf -> 0 <= i < nf /\ f g i = Ok (upd g i (fgrad i (vright i)))) -> zlen g = nf ->
  exists g', foldM f l g = Ok g' /\ zlen g' = nf /\ forall i, 0 <= i < nf -> (In i l -> nthZ None g' i = fgrad i (vright i)) /\ (~ In i l -> nthZ None g' i = nthZ None g i).
Proof.
  revert g. induction l as [|k l IH]; intros g H Hg; [exists g; cbn; repeat split; auto; contradiction|].
  destruct (H g k (or_introl eq_refl) Hg) as (Hk & E). cbn [foldM]. rewrite E. cbn [bind].
  destruct (IH (upd g k (fgrad k (vright k)))) as (g' & E' & L' & P); [intros g0 i Hi; apply H; right; exact Hi | rewrite zlen_upd; exact Hg|].
  exists g'. split; [exact E'|]. split; [exact L'|]. intros i Hi. destruct (P i Hi) as (P1 & P2). split.
  - intros [-> |Hin]; [|apply P1; exact Hin]. destruct (in_dec Z.eq_dec i l) as [D|D]; [apply P1; exact D|]. rewrite P2 by exact D. apply nthZ_upd_eq. lia.
  - intros Hn. rewrite P2 by (intros D; apply Hn; right; exact D). apply nthZ_upd_neq; [lia | lia |]. intros ->. apply Hn. left. reflexivity.
Qed.
Lemma face_gradient_ok g : zlen g = nf -> exists gs, face_gradient dim G (map dia (range nf)) L W w_node g = Ok gs /\ zlen gs = nf /\
  forall i, 0 <= i < nf -> (listed L i -> nthZ None gs i = fgrad i (vright i)) /\ (~ listed L i -> nthZ None gs i = nthZ None g i).
Proof.
  intros Hg. destruct LO as (O1 & O2 & O3 & O4). cbv zeta in *. destruct (wfa_len _ _ WF) as (L1 & L2 & L3 & L4 & L5 & L6). unfold face_gradient.
  assert (Fc : forall l g, (forall i, In i l -> 0 <= i < nf /\ (nthZ 0 (fd_name G) i = 0 \/ is_periodic dim (nthZ 0 (fd_name G) i) = true)) -> forall i, In i l -> zlen g = nf ->
     0 <= i < nf /\ (do c <- get2 (fd_cellid G) i 1; do v <- get (w_c W) c; do r <- (if dim =? 2 then face_grad2 else face_grad3) G (map dia (range nf)) W w_node i v; set g i r) = Ok (upd g i (fgrad i (vright i)))).
  { intros l g0 Hl i Hi Hg0. destruct (Hl i Hi) as (Hin & Hlab). split; [exact Hin|]. destruct (wfa_face _ _ WF i Hin) as (R1 & R2 & R3 & R4 & R5 & R6). cbv zeta in R5. specialize (R5 Hlab).
    unfold get2. rewrite (get_nthZ []) by lia. cbn [bind]. rewrite (get_nthZ 0) by lia. cbn [bind]. rewrite (get_nthZ 0%R) by lia. cbn [bind]. rewrite face_grad_ok by exact Hin. cbn [bind].
    rewrite set_upd by lia. do 3 f_equal. unfold vright, face_other. cbv zeta. destruct (_ =? 0) eqn:E0; [reflexivity|]. destruct Hlab as [Hlab|Hlab]; [lia | rewrite Hlab; reflexivity]. }
  assert (Fh : forall l g, (forall i, In i l -> 0 <= i < nf /\ nthZ 0 (fd_name G) i = 10) -> forall i, In i l -> zlen g = nf ->
     0 <= i < nf /\ (do h <- get (fd_halofid G) i; do v <- get (w_halo W) h; do r <- (if dim =? 2 then face_grad2 else face_grad3) G (map dia (range nf)) W w_node i v; set g i r) = Ok (upd g i (fgrad i (vright i)))).
  { intros l g0 Hl i Hi Hg0. destruct (Hl i Hi) as (Hin & Hlab). split; [exact Hin|]. destruct (wfa_face _ _ WF i Hin) as (R1 & R2 & R3 & R4 & R5 & R6). cbv zeta in R6. specialize (R6 Hlab).
    rewrite (get_nthZ 0) by lia. cbn [bind]. rewrite (get_nthZ 0%R) by lia. cbn [bind]. rewrite face_grad_ok by exact Hin. cbn [bind].
    rewrite set_upd by lia. do 3 f_equal. unfold vright, face_other. cbv zeta. rewrite Hlab. cbn [Z.eqb Pos.eqb]. replace (is_periodic dim 10) with false; [reflexivity|]. unfold is_periodic, is_x, is_y, is_z. cbn. lia. }
  assert (Fg : forall l g, (forall i, In i l -> 0 <= i < nf /\ nthZ 0 (fd_name G) i <> 0 /\ is_periodic dim (nthZ 0 (fd_name G) i) = false /\ nthZ 0 (fd_name G) i <> 10) -> forall i, In i l -> zlen g = nf ->
     0 <= i < nf /\ (do v <- get (w_ghost W) i; do r <- (if dim =? 2 then face_grad2 else face_grad3) G (map dia (range nf)) W w_node i v; set g i r) = Ok (upd g i (fgrad i (vright i)))).
  { intros l g0 Hl i Hi Hg0. destruct (Hl i Hi) as (Hin & Hl0 & Hlp & Hlh). split; [exact Hin|]. rewrite (get_nthZ 0%R) by lia. cbn [bind]. rewrite face_grad_ok by exact Hin. cbn [bind].
    rewrite set_upd by lia. do 3 f_equal. unfold vright, face_other. cbv zeta. replace (_ =? 0) with false by lia. rewrite Hlp. replace (_ =? 10) with false by lia. reflexivity. }
  match goal with |- context [foldM ?f (fl_inner L) g] => destruct (loop_ok f (fl_inner L) g) as (g1 & E1 & Z1 & P1) end; [intros g0 i Hi; apply (Fc (fl_inner L)); [intros k Hk; destruct (O1 k Hk); tauto | exact Hi] | exact Hg |]. rewrite E1. cbn [bind].
  match goal with |- context [foldM ?f (fl_periodic L) g1] => destruct (loop_ok f (fl_periodic L) g1) as (g2 & E2 & Z2 & P2) end; [intros g0 i Hi; apply (Fc (fl_periodic L)); [intros k Hk; destruct (O2 k Hk); tauto | exact Hi] | exact Z1 |]. rewrite E2. cbn [bind].
  match goal with |- context [foldM ?f (fl_halo L) g2] => destruct (loop_ok f (fl_halo L) g2) as (g3 & E3 & Z3 & P3) end; [intros g0 i Hi; apply (Fh (fl_halo L)); [exact O3 | exact Hi] | exact Z2 |]. rewrite E3. cbn [bind].
  match goal with |- context [foldM ?f (fl_dirichlet L) g3] => destruct (loop_ok f (fl_dirichlet L) g3) as (g4 & E4 & Z4 & P4) end; [intros g0 i Hi; apply (Fg (fl_dirichlet L)); [intros k Hk; apply O4; left; exact Hk | exact Hi] | exact Z3 |]. rewrite E4. cbn [bind].
  match goal with |- context [foldM ?f (fl_neumann L) g4] => destruct (loop_ok f (fl_neumann L) g4) as (g5 & E5 & Z5 & P5) end; [intros g0 i Hi; apply (Fg (fl_neumann L)); [intros k Hk; apply O4; right; exact Hk | exact Hi] | exact Z4 |].
  exists g5. split; [exact E5|]. split; [exact Z5|]. intros i Hi. unfold listed.
  destruct (P1 i Hi) as (A1 & B1), (P2 i Hi) as (A2 & B2), (P3 i Hi) as (A3 & B3), (P4 i Hi) as (A4 & B4), (P5 i Hi) as (A5 & B5).
  destruct (in_dec Z.eq_dec i (fl_neumann L)) as [D5|D5]; [rewrite A5 by exact D5; tauto|]. rewrite B5 by exact D5.
  destruct (in_dec Z.eq_dec i (fl_dirichlet L)) as [D4|D4]; [rewrite A4 by exact D4; tauto|]. rewrite B4 by exact D4.
  destruct (in_dec Z.eq_dec i (fl_halo L)) as [D3|D3]; [rewrite A3 by exact D3; tauto|]. rewrite B3 by exact D3.
  destruct (in_dec Z.eq_dec i (fl_periodic L)) as [D2|D2]; [rewrite A2 by exact D2; tauto|]. rewrite B2 by exact D2.
  destruct (in_dec Z.eq_dec i (fl_inner L)) as [D1|D1]; [rewrite A1 by exact D1; tauto|]. rewrite B1 by exact D1. tauto.
Qed.

(** exactness of the diamond formula *)
Lemma fgrad_exact i c g : 0 <= i < nf -> gradient dim g -> normal_of_nodes dim G i ->
  side (fd_vertex G) (nthZ [] (fd_nodes G) i) (fst (face_other dim G i)) <> side (fd_vertex G) (nthZ [] (fd_nodes G) i) (face_left G i) ->
  left_value G W i = affine c g (face_left G i) -> vright i = affine c g (fst (face_other dim G i)) ->
  (forall k, In k (nthZ [] (fd_nodes G) i) -> nthZ 0%R w_node k = affine c g (at_node (fd_vertex G) k)) ->
  fgrad i (vright i) = Some g.
Proof.
  intros Hi Hg HN HS HL HR Hk. destruct (wfa_face _ _ WF i Hi) as (_ & _ & R3 & R4 & _).
  unfold fgrad, dia, normal_of_nodes, wnode, xnode in *. rewrite HL, HR. set (v1 := face_left G i) in *. set (v2 := fst (face_other dim G i)) in *.
  destruct (wfa_dim _ _ WF) as [Ed|Ed].
  - replace (dim =? 2) with true by lia. cbv zeta. destruct (nthZ [] (fd_nodes G) i) as [|k1 [|k2 [|]]] eqn:EF; try (rewrite !zlen_cons in R3; pose proof (zlen_nonneg l); lia); try (unfold zlen in R3; cbn in R3; lia).
    change (nthZ 0 [k1; k2] 0) with k1. change (nthZ 0 [k1; k2] 1) with k2. rewrite (Hk k1 (or_introl eq_refl)), (Hk k2 (or_intror (or_introl eq_refl))).
    unfold side in HS. cbn [map] in HS. set (a := at_node (fd_vertex G) k1) in *. set (b := at_node (fd_vertex G) k2) in *. specialize (Hg Ed).
    unfold dia2. cbn [di_f1 di_f2 di_f3 di_f4 di_air]. set (air := (1/2 * _)%R).
    assert (HA : (2 * air)%R <> 0%R). { unfold air. intros E. apply HS. unfold turn. lra. }
    rewrite !odiv_some by exact HA. f_equal. destruct g as [g1 g2 g3]. cbn [pz] in Hg. subst g3. unfold affine, vdot, disp. cbn [px py pz]. f_equal; apply (Rmult_eq_reg_l (2 * air)%R); try exact HA; [replace (2 * air * g1)%R with (2 * air * g1)%R by ring | ]; rewrite <- Rmult_assoc; [replace (2 * air * (1 / (2 * air)))%R with 1%R by (field; lra) | replace (2 * air * (-1 / (2 * air)))%R with (-1)%R by (field; lra)]; unfold air; field.
  - replace (dim =? 2) with false by lia. cbv zeta. specialize (HN Ed). destruct (nthZ [] (fd_nodes G) i) as [|k1 [|k2 [|k3 [|]]]] eqn:EF; try contradiction.
    change (nthZ 0 [k1; k2; k3] 0) with k1. change (nthZ 0 [k1; k2; k3] 1) with k2. change (nthZ 0 [k1; k2; k3] 2) with k3. rewrite (Hk k1 ltac:(cbn; tauto)), (Hk k2 ltac:(cbn; tauto)), (Hk k3 ltac:(cbn; tauto)).
    unfold side in HS. cbn [map] in HS, HN. set (a := at_node (fd_vertex G) k1) in *. set (b := at_node (fd_vertex G) k2) in *. set (d := at_node (fd_vertex G) k3) in *.
    set (n := nthZ vzero (fd_normal G) i) in *.
    pose proof (HN (P3 1 0 0)) as N1. pose proof (HN (P3 0 1 0)) as N2. pose proof (HN (P3 0 0 1)) as N3. clear HN.
    unfold det4 in HS. unfold vdot, det, vsub, affine in *. cbn [px py pz] in *.
    destruct n as [n1 n2 n3], a as [a1 a2 a3], b as [b1 b2 b3], d as [d1 d2 d3], v1 as [u1 u2 u3], v2 as [w1 w2 w3], g as [g1 g2 g3]. cbn [px py pz] in *.
    unfold dia3, vdot, pdot, psub, padd, pscal, pcross. cbn [di_f1 di_f2 di_air px py pz].
    match type of N1 with _ = ?t => assert (E1 : n1 = t) by lra end. match type of N2 with _ = ?t => assert (E2 : n2 = t) by lra end. match type of N3 with _ = ?t => assert (E3 : n3 = t) by lra end. clear N1 N2 N3. subst n1 n2 n3.
    match goal with |- match odiv _ ?A with _ => _ end = _ => assert (HA : A <> 0%R) by (intros E; apply HS; lra) end.
    rewrite !odiv_some by exact HA. f_equal. match type of HA with ?A <> _ => f_equal; apply (Rmult_eq_reg_r A); try exact HA; unfold Rdiv; rewrite Rmult_assoc, Rinv_l, Rmult_1_r by exact HA; field end.
Qed.
End Face.
