(** * Proofs_streamer: drift law, diffusion, source, charge balance, right-hand side, time step (C47-C49, C61). *)
From Coq Require Import String Reals Rpower Lra ZifyBool.
From Verif Require Import Py PyLemmas Model_part Model_conn Spec_conn Model_geom Spec_geom Model_interp Spec_interp Model_fvm Spec_fvm Proofs_conn1 Proofs_interp1 Proofs_interp2 Proofs_fvm1 Proofs_fvm2 Model_streamer Spec_streamer.
Open Scope Z_scope.

Lemma norm3_vlen a : norm3 a = vlen a.
Proof. unfold norm3, vlen, vdot. f_equal. ring. Qed.
Lemma vdot_self_nonneg a : (0 <= vdot a a)%R.
Proof. unfold vdot. pose proof (Rle_0_sqr (px a)); pose proof (Rle_0_sqr (py a)); pose proof (Rle_0_sqr (pz a)); unfold Rsqr in *; lra. Qed.
Lemma vlen_nonneg a : (0 <= vlen a)%R.
Proof. apply sqrt_pos. Qed.
Lemma vlen_zero : vlen vzero = 0%R.
Proof. unfold vlen, vdot, vzero. cbn [px py pz]. replace (0 * 0 + 0 * 0 + 0 * 0)%R with 0%R by ring. apply sqrt_0. Qed.
Lemma vlen_0 a : vlen a = 0%R -> a = vzero.
Proof.
  intros H. apply sqrt_eq_0 in H; [|apply vdot_self_nonneg]. unfold vdot in H. destruct a as [x y z]. cbn [px py pz] in H. unfold vzero.
  pose proof (Rle_0_sqr x); pose proof (Rle_0_sqr y); pose proof (Rle_0_sqr z). unfold Rsqr in *.
  f_equal; apply Rsqr_0_uniq; unfold Rsqr; lra.
Qed.
Lemma vlen_pos a : a <> vzero -> (0 < vlen a)%R.
Proof. intros H. destruct (vlen_nonneg a) as [P|E]; [exact P|]. exfalso. apply H, vlen_0. symmetry. exact E. Qed.
Lemma vlen_scal k a : vlen (vscal k a) = (Rabs k * vlen a)%R.
Proof.
  unfold vlen. replace (vdot (vscal k a) (vscal k a)) with (Rsqr k * vdot a a)%R by (unfold vdot, vscal, Rsqr; cbn [px py pz]; ring).
  rewrite sqrt_mult by (apply Rle_0_sqr || apply vdot_self_nonneg). rewrite sqrt_Rsqr_abs. reflexivity.
Qed.
Lemma drift_pos r : (0 < r)%R -> (0 < drift_speed r)%R.
Proof. intros H. unfold drift_speed. destruct (Rle_dec r 0); [lra|]. destruct (Rle_dec _ _); [lra|]. destruct (Rle_dec _ _); [lra|]. destruct (Rle_dec _ _); lra. Qed.
Lemma drift_0 : drift_speed 0 = 0%R.
Proof. unfold drift_speed. destruct (Rle_dec 0 0); [reflexivity | lra]. Qed.

Lemma face_velocity_zero old : face_velocity vzero old = vzero.
Proof. unfold face_velocity. rewrite norm3_vlen, vlen_zero. destruct (Req_EM_T 0 0); [reflexivity | contradiction]. Qed.
Lemma face_velocity_law e old : e <> vzero -> face_velocity e old = vscal (- (drift_speed (vlen e / N_gas) / vlen e)) e.
Proof.
  intros H. pose proof (vlen_pos e H) as P. unfold face_velocity. rewrite norm3_vlen. cbv zeta. change gas with N_gas.
  assert (Q : (0 < vlen e / N_gas)%R) by (apply Rdiv_lt_0_compat; [exact P | unfold N_gas; lra]).
  destruct (Req_EM_T (vlen e) 0) as [|_]; [lra|].
  assert (along : forall a b, P3 (-1 / vlen e * (a * vlen e / N_gas + b) * px e) (-1 / vlen e * (a * vlen e / N_gas + b) * py e) (-1 / vlen e * (a * vlen e / N_gas + b) * pz e)
     = vscal (- ((a * (vlen e / N_gas) + b) / vlen e)) e) by (intros a b; unfold vscal; f_equal; unfold Rdiv; ring).
  unfold drift_speed. destruct (Rle_dec (vlen e / N_gas) 0) as [|_]; [lra|]. cbv zeta.
  destruct (Rlt_dec (2 / 1000000000000000) (vlen e / N_gas)) as [C|C].
  - destruct (Rle_dec (vlen e / N_gas) (26 / 1000000000000000000)) as [|_]; [lra|]. destruct (Rle_dec (vlen e / N_gas) (1 / 10000000000000000)) as [|_]; [lra|]. destruct (Rle_dec (vlen e / N_gas) (2 / 1000000000000000)) as [|_]; [lra|]. apply along.
  - destruct (Rlt_dec (1 / 10000000000000000) (vlen e / N_gas)) as [C1|C1].
    + destruct (Rle_dec (vlen e / N_gas) (26 / 1000000000000000000)) as [|_]; [lra|]. destruct (Rle_dec (vlen e / N_gas) (1 / 10000000000000000)) as [|_]; [lra|]. destruct (Rle_dec (vlen e / N_gas) (2 / 1000000000000000)) as [_|]; [|lra]. apply along.
    + destruct (Rlt_dec (26 / 1000000000000000000) (vlen e / N_gas)) as [C2|C2].
      * destruct (Rle_dec (vlen e / N_gas) (26 / 1000000000000000000)) as [|_]; [lra|]. destruct (Rle_dec (vlen e / N_gas) (1 / 10000000000000000)) as [_|]; [|lra]. apply along.
      * destruct (Rle_dec (vlen e / N_gas) (26 / 1000000000000000000)) as [_|]; [|lra]. apply along.
Qed.
Lemma face_velocity_anti e old : e <> vzero -> antiparallel (face_velocity e old) e.
Proof.
  intros H. pose proof (vlen_pos e H) as P. rewrite face_velocity_law by exact H. eexists. split; [|reflexivity].
  apply Rdiv_lt_0_compat; [|exact P]. apply drift_pos, Rdiv_lt_0_compat; [exact P | unfold N_gas; lra].
Qed.
Lemma face_velocity_speed e old : vlen (face_velocity e old) = drift_speed (vlen e / N_gas).
Proof.
  destruct (Req_EM_T (vlen e) 0) as [E|NE].
  - rewrite (vlen_0 e E), face_velocity_zero, vlen_zero. unfold Rdiv. rewrite Rmult_0_l, drift_0. reflexivity.
  - assert (H : e <> vzero) by (intros ->; apply NE, vlen_zero). pose proof (vlen_pos e H) as P. rewrite face_velocity_law by exact H. rewrite vlen_scal, Rabs_Ropp.
    assert (Q : (0 < drift_speed (vlen e / N_gas) / vlen e)%R) by (apply Rdiv_lt_0_compat; [apply drift_pos, Rdiv_lt_0_compat; [exact P | unfold N_gas; lra] | exact P]).
    rewrite Rabs_pos_eq by lra. field. lra.
Qed.

Lemma fold_padd l a : fold_left padd l a = vadd a (vsum l).
Proof.
  revert a. induction l as [|x l IH]; intros a; cbn [fold_left vsum fold_right].
  - destruct a as [x1 x2 x3]; unfold vadd, vzero; cbn [px py pz]; f_equal; ring.
  - rewrite IH. fold (vsum l). unfold vadd, padd. cbn [px py pz]. f_equal; ring.
Qed.
Lemma face_mean_ok a faceid dim i : 0 <= dim -> face_rows dim (zlen a) faceid -> 0 <= i < zlen faceid -> face_mean a faceid dim i = Ok (barycentre (map (nthZ vzero a) (nthZ [] faceid i))).
Proof.
  intros Hd HR Hi. destruct (HR i Hi) as (R1 & R2). unfold face_mean, get2. rewrite (get_nthZ [] faceid) by exact Hi. cbn [bind].
  rewrite (foldM_range_get (fun s f => do x <- get a f; Ok (padd s x)) (nthZ [] faceid i)) by (symmetry; exact R1).
  assert (G : forall l s, (forall f, In f l -> 0 <= f < zlen a) -> foldM (fun s f => do x <- get a f; Ok (padd s x)) l s = Ok (fold_left padd (map (nthZ vzero a) l) s)).
  { induction l as [|f l IH]; intros s H; [reflexivity|]. cbn [foldM map fold_left]. rewrite (get_nthZ vzero) by (apply H; left; reflexivity). cbn [bind]. apply IH. intros; apply H; right; assumption. }
  rewrite G by exact R2. cbn [bind]. f_equal. rewrite fold_padd. unfold barycentre. rewrite zlen_map, R1. unfold vscal, vadd, p0. cbn [px py pz]. unfold Rdiv. f_equal; ring.
Qed.

Lemma mapM_list {A} (f : Z -> res A) (g : Z -> A) (d : A) n : 0 <= n -> (forall i, 0 <= i < n -> f i = Ok (g i)) -> exists r, mapM f (range n) = Ok r /\ zlen r = n /\ forall i, 0 <= i < n -> nthZ d r i = g i.
Proof.
  intros Hn H. exists (map g (range n)). split; [|split].
  - apply mapM_ok. intros i Hi. apply H, in_range. exact Hi.
  - rewrite zlen_map, zlen_range by exact Hn. reflexivity.
  - intros i Hi. rewrite (nthZ_map g 0) by (rewrite zlen_range; lia). rewrite nthZ_range by exact Hi. reflexivity.
Qed.

Lemma c47 dim Ef old faceid : 0 <= dim -> zlen old = zlen Ef -> face_rows dim (zlen Ef) faceid ->
  exists vf vc Ec, compute_velocity Ef old faceid dim = Ok (vf, vc, Ec) /\ zlen vf = zlen Ef /\ zlen vc = zlen faceid /\ zlen Ec = zlen faceid /\
  (forall f, 0 <= f < zlen Ef -> let e := nthZ vzero Ef f in let v := nthZ vzero vf f in
     (e = vzero -> v = vzero) /\ (e <> vzero -> antiparallel v e) /\ vlen v = drift_speed (vlen e / N_gas)) /\
  (forall c, 0 <= c < zlen faceid -> nthZ vzero vc c = barycentre (map (nthZ vzero vf) (nthZ [] faceid c)) /\ nthZ vzero Ec c = barycentre (map (nthZ vzero Ef) (nthZ [] faceid c))).
Proof.
  intros Hd HL HR. unfold compute_velocity.
  destruct (mapM_list (fun i => do e <- get Ef i; do o <- get old i; ret (face_velocity e o)) (fun i => face_velocity (nthZ vzero Ef i) (nthZ vzero old i)) vzero (zlen old)) as (vf & E & Lf & Hf).
  { apply zlen_nonneg. } { intros i Hi. rewrite !(get_nthZ vzero) by lia. reflexivity. }
  rewrite E. cbn [bind].
  destruct (mapM_list (face_mean vf faceid dim) (fun c => barycentre (map (nthZ vzero vf) (nthZ [] faceid c))) vzero (zlen faceid)) as (vc & E1 & L1 & H1).
  { apply zlen_nonneg. } { intros i Hi. apply face_mean_ok; [exact Hd | rewrite Lf, HL; exact HR | exact Hi]. }
  rewrite E1. cbn [bind].
  destruct (mapM_list (face_mean Ef faceid dim) (fun c => barycentre (map (nthZ vzero Ef) (nthZ [] faceid c))) vzero (zlen faceid)) as (Ec & E2 & L2 & H2).
  { apply zlen_nonneg. } { intros i Hi. apply face_mean_ok; [exact Hd | exact HR | exact Hi]. }
  rewrite E2. cbn [bind]. exists vf, vc, Ec. split; [reflexivity|]. split; [lia|]. split; [exact L1|]. split; [exact L2|]. split.
  - intros f Hf0. rewrite Hf by lia. split; [intros ->; apply face_velocity_zero|]. split; [apply face_velocity_anti | apply face_velocity_speed].
  - intros c Hc. split; [apply H1; exact Hc | apply H2; exact Hc].
Qed.

(** C48 *)
Lemma diffusivity_nonneg e v : (0 <= electron_diffusivity e v)%R.
Proof.
  unfold electron_diffusivity. destruct (Req_EM_T (vlen e) 0) as [|NE]; [apply Rle_refl|]. pose proof (vlen_nonneg e). pose proof (vlen_nonneg v).
  apply Rmult_le_pos; [apply Rmult_le_pos; [lra | unfold Rpower; left; apply exp_pos]|]. apply Rmult_le_pos; [lra | left; apply Rinv_0_lt_compat; lra].
Qed.
Section S1.
Context (dim : Z) (X : fvdata) (L : fvlists).
Hypothesis WF : wf_fvdata dim X.
Hypothesis WL : wf_lists dim X L.
Notation nc := (zlen (fv_centerc X)).
Notation nf := (zlen (fv_cellid X)).

Lemma dissip_streamer_ok vel Ef grads : zlen grads = nf -> zlen Ef = nf -> zlen vel = nf -> exists r, dissipative_streamer vel Ef grads (fv_cellid X) (fv_normal X) (fv_name X) nc = Ok r /\ zlen r = nc /\
  forall c, 0 <= c < nc -> nthZ 0%R r c = rsum (map (leaves X (electron_diffusion X vel Ef grads) c) (range nf)).
Proof.
  intros HG HE HV. unfold dissipative_streamer.
  destruct (foldM_sum (dissip_streamer_face vel Ef grads (fv_cellid X) (fv_normal X) (fv_name X)) (fun a => a) (leaves X (electron_diffusion X vel Ef grads)) nc (range nf) (zeros_like 0%R nc)) as (r & E & Lr & P).
  - apply zlen_zeros_like, zlen_nonneg.
  - intros a f Hf Ha. apply in_range in Hf. destruct (wfv_len _ _ WF) as (L1 & L2 & L3 & L4 & L5). destruct (wfv_face _ _ WF f Hf) as (R1 & R2 & R3 & _).
    unfold dissip_streamer_face, get2. rewrite (get_nthZ vzero (fv_normal X)) by lia. cbn [bind]. rewrite (get_nthZ vzero grads) by lia. cbn [bind]. rewrite (get_nthZ vzero Ef) by lia. cbn [bind]. rewrite (get_nthZ vzero vel) by lia. cbn [bind]. cbv zeta. rewrite (get_nthZ 0 (fv_name X)) by lia. cbn [bind].
    rewrite (get_nthZ [] (fv_cellid X)) by lia. cbn [bind]. rewrite (get_nthZ 0 (nthZ [] (fv_cellid X) f) 0) by lia. cbn [bind]. fold (cell0 X f) (fv_label X f).
    rewrite !norm3_vlen. unfold diff_coef. change gas with N_gas. fold (electron_diffusivity (nthZ vzero Ef f) (nthZ vzero vel f)). fold (vdot (nthZ vzero grads f) (nthZ vzero (fv_normal X) f)). fold (electron_diffusion X vel Ef grads f).
    unfold leaves. destruct (fv_label X f =? 0) eqn:E0; cbn [andb].
    + assert (R4 : 0 <= cell1 X f < nc) by (apply R3; left; lia). rewrite add_at_ok by lia. cbn [bind]. rewrite (get_nthZ 0 (nthZ [] (fv_cellid X) f) 1) by lia. cbn [bind]. fold (cell1 X f).
      rewrite add_at_ok by (rewrite zlen_upd; lia). eexists. split; [reflexivity|]. split; [rewrite !zlen_upd; exact Ha|].
      intros c Hc. rewrite nthZ_add by (rewrite ?zlen_upd; lia). rewrite nthZ_add by lia. destruct (cell0 X f =? c), (cell1 X f =? c); ring.
    + rewrite add_at_ok by lia. eexists. split; [reflexivity|]. split; [rewrite !zlen_upd; exact Ha|]. intros c Hc. rewrite nthZ_add by lia. destruct (cell0 X f =? c); ring.
  - exists r. split; [exact E|]. split; [exact Lr|]. intros c Hc. rewrite P by exact Hc. rewrite nthZ_zeros by exact Hc. ring.
Qed.
Lemma c48_diffusion vel Ef grads : zlen grads = nf -> zlen Ef = nf -> zlen vel = nf -> exists r, dissipative_streamer vel Ef grads (fv_cellid X) (fv_normal X) (fv_name X) nc = Ok r /\ zlen r = nc /\
  (forall c, 0 <= c < nc -> nthZ 0%R r c = rsum (map (leaves X (electron_diffusion X vel Ef grads) c) (range nf))) /\
  rsum r = rsum (map (electron_diffusion X vel Ef grads) (filter (fun f => negb (fv_label X f =? 0)) (range nf))).
Proof.
  intros HG HE HV. destruct (dissip_streamer_ok vel Ef grads HG HE HV) as (r & E & Hl & H). exists r. split; [exact E|]. split; [exact Hl|]. split; [exact H|].
  rewrite rsum_nthZ, Hl. rewrite (rsum_map_ext _ (fun c => rsum (map (leaves X (electron_diffusion X vel Ef grads) c) (range nf)))%R) by (intros c Hc; apply H, in_range; exact Hc).
  apply residual_total. intros f Hf. apply (face_cells dim X WF), in_range. exact Hf.
Qed.
End S1.

Lemma alpha_nonneg E : (0 <= alpha_n E)%R.
Proof. unfold alpha_n. destruct (Req_EM_T E 0); [lra|]. destruct (Rlt_dec _ _); (apply Rmult_le_pos; [lra | left; apply exp_pos]). Qed.
Lemma branch_nonneg br c : (0 <= branch_source br c)%R.
Proof. unfold branch_source. cbv zeta. destruct (br =? 1); [|destruct (br =? 2); [|lra]]; (apply Rmult_le_pos; [lra | left; apply exp_pos]). Qed.
Lemma c48_source ne vel E center br : zlen vel = zlen ne -> zlen E = zlen ne -> zlen center = zlen ne ->
  exists src, source_streamer ne vel E center br = Ok src /\ zlen src = zlen ne /\
  forall c, 0 <= c < zlen ne -> let s := nthZ (0, 0)%R src c in fst s = snd s /\ ((0 <= nthZ 0 ne c)%R -> (0 <= fst s)%R) /\
    (nthZ vzero vel c = vzero -> br = 0 -> fst s = 0%R).
Proof.
  intros H1 H2 H3. unfold source_streamer.
  match goal with |- context[mapM ?f _] => destruct (mapM_list f (fun i => let S := (alpha_n (norm3 (nthZ vzero E i)) * norm3 (nthZ vzero vel i) * nthZ 0 ne i * gas + branch_source br (nthZ vzero center i))%R in (S, S)) (0, 0)%R (zlen ne)) as (r & Er & Lr & P) end.
  - apply zlen_nonneg.
  - intros i Hi. rewrite !(get_nthZ vzero) by lia. cbn [bind]. rewrite (get_nthZ 0%R) by lia. reflexivity.
  - exists r. split; [exact Er|]. split; [exact Lr|]. intros c Hc. rewrite P by exact Hc. cbv zeta. cbn [fst snd]. split; [reflexivity|]. split.
    + intros Hn. apply Rplus_le_le_0_compat; [|apply branch_nonneg]. apply Rmult_le_pos; [|unfold gas; lra]. apply Rmult_le_pos; [|exact Hn]. apply Rmult_le_pos; [apply alpha_nonneg | rewrite norm3_vlen; apply vlen_nonneg].
    + intros -> ->. rewrite (norm3_vlen vzero), vlen_zero. unfold branch_source. cbn [Z.eqb]. ring.
Qed.

Lemma update_streamer_ok ne ni rez_ne rez_ni dis_ne dis_ni src dt vol : zlen ni = zlen ne -> zlen rez_ne = zlen ne -> zlen rez_ni = zlen ne -> zlen dis_ne = zlen ne -> zlen dis_ni = zlen ne -> zlen src = zlen ne -> zlen vol = zlen ne ->
  (forall c, 0 <= c < zlen ne -> nthZ 0%R vol c <> 0%R) ->
  exists r, update_streamer_flux ne ni rez_ne rez_ni dis_ne dis_ni src dt vol = Ok r /\ zlen r = zlen ne /\
  forall c, 0 <= c < zlen ne -> nthZ (None, None) r c =
    (Some (nthZ 0 ne c + dt * ((nthZ 0 rez_ne c + nthZ 0 dis_ne c) / nthZ 0 vol c + fst (nthZ (0, 0) src c)))%R, Some (nthZ 0 ni c + dt * ((nthZ 0 rez_ni c + nthZ 0 dis_ni c) / nthZ 0 vol c + snd (nthZ (0, 0) src c)))%R).
Proof.
  intros H1 H2 H3 H4 H5 H6 H7 HV. unfold update_streamer_flux. cbv zeta.
  apply (mapM_list _ (fun c => (Some (nthZ 0 ne c + dt * ((nthZ 0 rez_ne c + nthZ 0 dis_ne c) / nthZ 0 vol c + fst (nthZ (0, 0) src c)))%R, Some (nthZ 0 ni c + dt * ((nthZ 0 rez_ni c + nthZ 0 dis_ni c) / nthZ 0 vol c + snd (nthZ (0, 0) src c)))%R)) (None, None) (zlen ne)).
  - apply zlen_nonneg.
  - intros c Hc. rewrite !(get_nthZ 0%R) by lia. cbn [bind]. rewrite (get_nthZ (0, 0)%R) by lia. cbn [bind]. rewrite !odiv_some by (apply HV; exact Hc). reflexivity.
Qed.

(** one step *)
Lemma c48_step M A grads Ef vf Ec vc ni : let X := st_X M in let nf := zlen (fv_cellid X) in let nc := zlen (fv_centerc X) in
  wf_fvdata (st_dim M) X -> wf_lists (st_dim M) X (st_L M) -> wf_advected X A vf ->
  zlen grads = nf -> zlen Ef = nf -> zlen Ec = nc -> zlen vc = nc -> zlen ni = nc -> zlen (st_vol M) = nc -> (forall c, 0 <= c < nc -> (0 < nthZ 0 (st_vol M) c)%R) ->
  (forall t, In t needed_terms -> In t (st_terms M)) ->
  exists r ne' ni', update_solution_streamer M A grads Ef vf Ec vc ni = Ok r /\ r = combine (map Some ne') (map Some ni') /\ zlen ne' = nc /\ zlen ni' = nc /\
  net_charge (st_vol M) ne' ni' = (net_charge (st_vol M) (ad_c A) ni
     + st_dt M * (rsum (map (electron_diffusion X vf Ef grads) (filter (fun f => negb (fv_label X f =? 0)%Z) (range nf))) - rsum (map (fv_flux (st_dim M) (st_order M) X A vf) (outer_faces (st_L M)))))%R /\
  ((0 <= st_dt M)%R -> (forall x, In x (ad_c A) -> (0 <= x)%R) -> forall c, 0 <= c < nc -> (nthZ 0 ni c <= nthZ 0 ni' c)%R).
Proof.
  intros X nf nc WF WL WA HG HE HEc Hvc Hni HV HP HT. pose proof WA as (A1 & A2 & A3 & A4 & A5 & A6 & A7 & A8). unfold update_solution_streamer. fold X. cbv zeta.
  assert (T : forallb (fun t => existsb (String.eqb t) (st_terms M)) ["convective"; "dissipation"; "source"]%string = true).
  { apply forallb_forall. intros t Ht. apply existsb_exists. exists t. split; [apply HT, Ht | apply String.eqb_refl]. }
  rewrite T. cbn [negb]. fold nc in A1. 
  destruct (c48_source (ad_c A) vc Ec (fv_centerc X) 0) as (src & ES & LS & PS); [lia | lia | symmetry; exact A1|]. rewrite ES. cbn [bind]. rewrite A1.
  destruct (c29 (st_dim M) X (st_L M) WF WL (st_order M) A vf WA) as (rez & ER & LR & _ & SR). fold nc in ER, LR. rewrite ER. cbn [bind].
  destruct (c48_diffusion (st_dim M) X WF vf Ef grads HG HE A8) as (dis & ED & LD & _ & SD). fold nc in ED, LD. rewrite ED. cbn [bind].
  assert (N0 : 0 <= nc) by apply zlen_nonneg.
  destruct (update_streamer_ok (ad_c A) ni rez (zeros_like 0%R nc) dis (zeros_like 0%R nc) src (st_dt M) (st_vol M)) as (r & EU & LU & PU); try (rewrite ?zlen_zeros_like by exact N0; lia).
  { intros c Hc. rewrite A1 in Hc. specialize (HP c Hc). lra. }
  rewrite EU. set (fe := fun c => (nthZ 0 (ad_c A) c + st_dt M * ((nthZ 0 rez c + nthZ 0 dis c) / nthZ 0 (st_vol M) c + fst (nthZ (0, 0) src c)))%R). set (fi := fun c => (nthZ 0 ni c + st_dt M * ((0 + 0) / nthZ 0 (st_vol M) c + snd (nthZ (0, 0) src c)))%R).
  exists r, (map fe (range nc)), (map fi (range nc)). split; [reflexivity|]. rewrite A1 in LU, PU.
  split.
  { apply (nthZ_ext (None, None)).
    - rewrite LU. unfold zlen. rewrite combine_length, !map_length, Nat.min_id. fold (zlen (range nc)). rewrite zlen_range by exact N0. reflexivity.
    - intros c Hc. rewrite LU in Hc. rewrite PU by exact Hc. assert (C : nthZ (None, None) (combine (map Some (map fe (range nc))) (map Some (map fi (range nc)))) c = (nthZ None (map Some (map fe (range nc))) c, nthZ None (map Some (map fi (range nc))) c)) by (unfold nthZ; apply combine_nth; rewrite !map_length; reflexivity). rewrite C.
      rewrite !(nthZ_map Some 0%R) by (rewrite zlen_map, zlen_range; lia). rewrite !(nthZ_map _ 0) by (rewrite zlen_range; lia). rewrite !nthZ_range by exact Hc. unfold fe, fi. rewrite !nthZ_zeros by exact Hc. reflexivity. }
  split; [rewrite zlen_map, zlen_range by exact N0; reflexivity|]. split; [rewrite zlen_map, zlen_range by exact N0; reflexivity|]. split.
  - unfold net_charge. rewrite HV. fold nc.
    rewrite (rsum_map_ext _ (fun c => nthZ 0 (st_vol M) c * (nthZ 0 (ad_c A) c - nthZ 0 ni c) + st_dt M * (nthZ 0 dis c + nthZ 0 rez c))%R).
    + rewrite rsum_map_add, rsum_map_scal, rsum_map_add. f_equal. f_equal. rewrite <- LD at 1. rewrite <- (rsum_nthZ dis), <- LR, <- (rsum_nthZ rez), SD, SR. fold nf. ring.
    + intros c Hc. apply in_range in Hc. rewrite !(nthZ_map _ 0) by (rewrite zlen_range; lia). rewrite !nthZ_range by exact Hc. unfold fe, fi. destruct (PS c ltac:(lia)) as (P1 & _). rewrite <- P1. specialize (HP c Hc). field. lra.
  - intros Hdt Hne c Hc. rewrite (nthZ_map _ 0) by (rewrite zlen_range; lia). rewrite nthZ_range by exact Hc. unfold fi. destruct (PS c ltac:(lia)) as (P1 & P2 & _). rewrite <- P1.
    assert (0 <= fst (nthZ (0, 0) src c))%R by (apply P2, Hne, nthZ_In; lia). assert (0 <= st_dt M * fst (nthZ (0, 0) src c))%R by (apply Rmult_le_pos; assumption). unfold Rdiv. rewrite Rplus_0_l, Rmult_0_l, Rplus_0_l. lra.
Qed.
