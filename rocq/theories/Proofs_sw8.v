(** * Proofs_sw8: balance of mass, tracer and bottom over a step. *)
From Coq Require Import Reals Lra Psatz Permutation ZifyBool Rpower.
From Verif Require Import Py PyLemmas Model_part Model_conn Spec_conn Model_geom Spec_geom Model_interp Spec_interp Model_fvm Spec_fvm Proofs_conn1 Proofs_interp1 Proofs_fvm1 Proofs_fvm2 Model_sw Spec_sw Proofs_sw3 Proofs_sw4 Proofs_sw5 Proofs_sw6 Proofs_sw7.
Open Scope Z_scope.

Lemma nonneg_in l x : nonneg l = true -> In x l -> (0 <= x)%R.
Proof. unfold nonneg. rewrite forallb_forall. intros H Hx. specialize (H x Hx). destruct (Rle_dec 0 x); [assumption | discriminate]. Qed.
Lemma nonzero_in l x : nonzero l = true -> In x l -> x <> 0%R.
Proof. unfold nonzero. rewrite forallb_forall. intros H Hx E. specialize (H x Hx). destruct (Req_EM_T x 0); [discriminate | contradiction]. Qed.
Lemma some_flux l r n m g F : srnh_scheme l r n m g = Some F -> wet l /\ wet r /\ q_Z F = 0%R.
Proof.
  unfold srnh_scheme. cbv zeta. match goal with |- (if ?a && ?b then _ else _) = _ -> _ => destruct a eqn:EA; [destruct b eqn:EB|]; cbn [andb]; try discriminate end.
  intros [= <-]. cbn [q_Z]. unfold wet.
  assert (A1 : (0 <= q_h l)%R) by (apply (nonneg_in _ _ EA); left; reflexivity). assert (A2 : (0 <= q_h r)%R) by (apply (nonneg_in _ _ EA); right; left; reflexivity).
  assert (B1 : q_h l <> 0%R) by (apply (nonzero_in _ _ EB); left; reflexivity). assert (B2 : q_h r <> 0%R) by (apply (nonzero_in _ _ EB); right; left; reflexivity).
  split; [lra|]. split; [lra|]. unfold Rdiv. ring.
Qed.

(** the source acts on the discharge only *)
Lemma source_shape X C A src : term_source_SW X C A = Ok src -> zlen src = zlen (sw_c A) /\ forall c s, 0 <= c < zlen (sw_c A) -> nthZ None src c = Some s -> q_h s = 0%R /\ q_hc s = 0%R /\ q_Z s = 0%R.
Proof.
  intros E. pose proof (mapM_zlen _ _ _ E) as Hz. rewrite zlen_range in Hz by apply zlen_nonneg. split; [exact Hz|]. intros c s Hc Hs.
  pose proof (mapM_nthZ _ _ _ 0 None c E ltac:(rewrite zlen_range by apply zlen_nonneg; exact Hc)) as P. rewrite nthZ_range in P by exact Hc. rewrite Hs in P.
  repeat (apply bind_ok in P as (? & _ & P)). injection P as P. destruct (source_cell _ _ _ _ _ _) as [(sx, sy)|]; [|discriminate]. injection P as <-. cbn. auto.
Qed.
Lemma all_some_inv {T} (l : list (option T)) r : all_some l = Some r -> l = map Some r.
Proof.
  revert r. induction l as [|x l IH]; intros r E; cbn in E; [injection E as <-; reflexivity|]. destruct x as [x|]; [|discriminate]. destruct (all_some l) as [l'|]; [|discriminate]. injection E as <-. cbn. f_equal. apply IH. reflexivity.
Qed.
(** friction keeps depth, tracer and bottom *)
Lemma friction_keeps w w1 grav eta time : all_some (term_friction_SW w grav eta time) = Some w1 -> zlen w1 = zlen w /\
  forall c, 0 <= c < zlen w -> q_h (nthZ q5_zero w1 c) = q_h (nthZ q5_zero w c) /\ q_hc (nthZ q5_zero w1 c) = q_hc (nthZ q5_zero w c) /\ q_Z (nthZ q5_zero w1 c) = q_Z (nthZ q5_zero w c).
Proof.
  intros E. apply all_some_inv in E. unfold term_friction_SW in E. assert (Hz : zlen w1 = zlen w) by (apply (f_equal zlen) in E; rewrite !zlen_map in E; symmetry; exact E). split; [exact Hz|]. intros c Hc.
  apply (f_equal (fun l => nthZ None l c)) in E. rewrite (nthZ_map _ q5_zero) in E by exact Hc. rewrite (nthZ_map Some q5_zero) in E by lia. unfold friction_cell in E. destruct (Rlt_dec _ _); [|discriminate]. cbv zeta in E.
  destruct (odiv _ _); [|discriminate]. destruct (odiv _ _); [|discriminate]. injection E as <-. cbn. auto.
Qed.

Section Balance.
Context (M : swmodel) (refresh : list q5 -> swdata) (facegrad : swdata -> list pt).
Let X := sm_X M.
Let L := sm_L M.
Let nc := zlen (fv_centerc X).
Context (WF : wf_fvdata 2 X) (WL : wf_lists 2 X L).
Context (HV : zlen (sm_vol M) = nc /\ forall c, 0 <= c < nc -> (0 < nthZ 0%R (sm_vol M) c)%R).
Let after_friction (w : list q5) : swdata := Spec_sw.after_friction M refresh w.

Lemma step_balance w new : (forall l, sw_c (refresh l) = l) -> wf_swdata X (sm_mesure M) (after_friction w) -> zlen (facegrad (after_friction w)) = zlen (fv_cellid X) ->
  update_solution_SW M refresh facegrad w = Ok (Some new) -> (forall c, 0 <= c < nc -> nthZ None new c <> None) ->
  let A := after_friction w in let F f := the5 (sw_flux (sm_order M) X (sm_mesure M) A f) in
  zlen new = nc /\ zlen w = nc /\
  (forall f, In f (sw_faces L) -> sw_flux (sm_order M) X (sm_mesure M) A f = Some (F f)) /\
  (forall c, 0 <= c < nc -> q_Z (the5 (nthZ None new c)) = q_Z (nthZ q5_zero w c)) /\
  rsum (map (fun c => nthZ 0%R (sm_vol M) c * q_h (the5 (nthZ None new c)))%R (range nc)) =
    (rsum (map (fun c => nthZ 0%R (sm_vol M) c * q_h (nthZ q5_zero w c))%R (range nc)) - sm_dt M * rsum (map (fun f => q_h (F f)) (ls_halo L ++ ls_boundary L)))%R /\
  rsum (map (fun c => nthZ 0%R (sm_vol M) c * q_hc (the5 (nthZ None new c)))%R (range nc)) =
    (rsum (map (fun c => nthZ 0%R (sm_vol M) c * q_hc (nthZ q5_zero w c))%R (range nc)) - sm_dt M * (rsum (map (fun f => q_hc (F f)) (ls_halo L ++ ls_boundary L)) +
      rsum (map (diffusion X (facegrad A) (P3 (co_Dx (sm_coef M)) (co_Dy (sm_coef M)) 0)) (filter (fun f => negb (fv_label X f =? 0)) (range (zlen (fv_cellid X)))))))%R.
Proof.
  intros RC WA FG EU HN A F. unfold update_solution_SW in EU. unfold after_friction, Spec_sw.after_friction in *. fold X L in EU. cbv zeta in EU. match type of EU with (if ?b then _ else _) = _ => destruct b; [discriminate EU|] end.
  destruct (all_some (term_friction_SW w g981 (co_Mann (sm_coef M)) (sm_dt M))) as [w1|] eqn:EF; [|discriminate]. fold A in WA, FG. change (refresh w1) with A in EU.
  destruct (friction_keeps _ _ _ _ _ EF) as (Hw1 & K). assert (EA : sw_c A = w1) by apply RC.
  destruct (wsw_cells _ _ _ WA) as (A1 & _). rewrite EA in A1, EU. fold nc in A1. rewrite A1 in EU. assert (Hw : zlen w = nc) by lia.
  destruct (residual_ok (sm_order M) X (sm_mesure M) L A WF WL WA) as (rez & E1 & (Hz & D)). fold nc in E1, Hz, D. rewrite E1 in EU. cbn [bind] in EU.
  destruct (c30 2 X WF (facegrad A) (P3 (co_Dx (sm_coef M)) (co_Dy (sm_coef M)) 0) FG) as (dis & E2 & Hd & _ & TD). fold nc in E2, Hd. rewrite E2 in EU. cbn [bind] in EU.
  apply bind_ok in EU as (src & E3 & EU). destruct (source_shape _ _ _ _ E3) as (Hs & PS). rewrite EA, A1 in Hs, PS. destruct HV as (V1 & V2).
  destruct (update_SW_ok w1 rez src dis (term_coriolis_SW w1 (co_fc (sm_coef M))) (0, 0)%R (sm_dt M) (sm_vol M)) as (new' & E4 & Hn & PN); try (rewrite A1; assumption); [unfold term_coriolis_SW; apply zlen_map|].
  rewrite E4 in EU. cbn [bind] in EU. injection EU as ->. rewrite A1 in Hn, PN.
  assert (SR : forall c, 0 <= c < nc -> exists r s, nthZ None rez c = Some r /\ nthZ None src c = Some s).
  { intros c Hc. specialize (HN c Hc). rewrite PN in HN by exact Hc. destruct (nthZ None rez c) as [r|]; [|contradiction HN; reflexivity]. destruct (nthZ None src c) as [s|]; [|contradiction HN; reflexivity]. exists r, s. auto. }
  assert (SF : forall f, In f (sw_faces L) -> sw_flux (sm_order M) X (sm_mesure M) A f = Some (F f)).
  { intros f Hf. unfold F. destruct (sw_flux (sm_order M) X (sm_mesure M) A f) as [G|] eqn:EG; [reflexivity|]. exfalso. destruct (sw_faces_ok X L WF WL f Hf) as (_ & H0 & _). destruct (SR _ H0) as (r & s & Er & _).
    destruct (D _ H0) as (_ & D2). rewrite D2 in Er; [discriminate|]. exists f. split; [exact Hf|]. split; [left; reflexivity | exact EG]. }
  assert (PR : forall c, 0 <= c < nc -> exists s, nthZ None src c = Some s /\ nthZ None new c = update_cell (nthZ q5_zero w1 c) (q5_opp (leaves5 X F c (sw_faces L))) s (nthZ 0%R dis c) (nthZ (0, 0)%R (term_coriolis_SW w1 (co_fc (sm_coef M))) c) (0, 0)%R (sm_dt M) (nthZ 0%R (sm_vol M) c)).
  { intros c Hc. destruct (SR c Hc) as (r & s & Er & Es). exists s. split; [exact Es|]. rewrite PN by exact Hc. destruct (D c Hc) as (D1 & _). rewrite (D1 F) by (intros f Hf _; apply SF, Hf). rewrite Es. reflexivity. }
  assert (BZ : forall c, rsum (map (leaves X (fun f => q_Z (F f)) c) (sw_faces L)) = 0%R).
  { intros c. apply rsum_map_zero. intros f Hf. pose proof (some_flux _ _ _ _ _ _ (SF f Hf)) as (_ & _ & EZ). unfold leaves. rewrite EZ. destruct (cell0 X f =? c), ((fv_label X f =? 0) && (cell1 X f =? c)); ring. }
  assert (UH : forall c, 0 <= c < nc -> let v := nthZ 0%R (sm_vol M) c in
     (v * q_h (the5 (nthZ None new c)) = v * q_h (nthZ q5_zero w c) + sm_dt M * (- rsum (map (leaves X (fun f => q_h (F f)) c) (sw_faces L))) /\
      v * q_hc (the5 (nthZ None new c)) = v * q_hc (nthZ q5_zero w c) + (sm_dt M * (- rsum (map (leaves X (fun f => q_hc (F f)) c) (sw_faces L))) + - sm_dt M * nthZ 0 dis c) /\
      q_Z (the5 (nthZ None new c)) = q_Z (nthZ q5_zero w c))%R).
  { intros c Hc v. destruct (PR c Hc) as (s & Es & ->). destruct (PS c s ltac:(lia) Es) as (S1 & S2 & S3). pose proof (V2 c Hc) as V. fold v in V. rewrite update_cell_ok by (fold v; lra). cbn [the5 q_h q_hc q_Z]. fold v.
    destruct (K c ltac:(lia)) as (K1 & K2 & K3). rewrite S1, S2, S3, K1, K2, K3. unfold q5_opp, leaves5. cbv zeta. cbn [q_h q_hc q_Z]. rewrite (BZ c). repeat split; field; lra. }
  split; [exact Hn|]. split; [exact Hw|]. split; [exact SF|]. split; [intros c Hc; apply UH, Hc|].
  assert (TOT : forall x : q5 -> R, rsum (map (fun c => rsum (map (leaves X (fun f => x (F f)) c) (sw_faces L))) (range nc)) = rsum (map (fun f => x (F f)) (ls_halo L ++ ls_boundary L))).
  { intros x. rewrite <- (outer_sw X L WL). apply residual_total. intros f Hf. apply (sw_faces_ok X L WF WL), Hf. }
  split.
  - rewrite (rsum_map_ext _ (fun c => nthZ 0%R (sm_vol M) c * q_h (nthZ q5_zero w c) + sm_dt M * (- rsum (map (leaves X (fun f => q_h (F f)) c) (sw_faces L))))%R) by (intros c Hc; apply in_range in Hc; apply UH, Hc).
    rewrite rsum_map_add, (rsum_map_scal (sm_dt M)), rsum_map_opp, (TOT q_h). ring.
  - rewrite (rsum_map_ext _ (fun c => nthZ 0%R (sm_vol M) c * q_hc (nthZ q5_zero w c) + (sm_dt M * (- rsum (map (leaves X (fun f => q_hc (F f)) c) (sw_faces L))) + - sm_dt M * nthZ 0 dis c))%R) by (intros c Hc; apply in_range in Hc; apply UH, Hc).
    rewrite rsum_map_add, rsum_map_add, (rsum_map_scal (sm_dt M)), rsum_map_opp, (TOT q_hc), (rsum_map_scal (- sm_dt M)). rewrite <- TD. rewrite (rsum_nthZ dis), Hd. ring.
Qed.
End Balance.
