(** * Proofs_fvm2: conservation, uniform states, maximum principle, time step (C29-C34). *)
From Verif Require Import Py PyLemmas Model_part Model_conn Spec_conn Model_geom Spec_geom Model_interp Spec_interp Model_fvm Spec_fvm Proofs_conn1 Proofs_interp1 Proofs_interp2 Proofs_fvm1.
From Coq Require Import Permutation Lra ZifyBool.
Open Scope Z_scope.

Lemma rsum_cons x l : rsum (x :: l) = (x + rsum l)%R.
Proof. reflexivity. Qed.
Lemma rsum_map_le {T} (f g : T -> R) l : (forall x, In x l -> (f x <= g x)%R) -> (rsum (map f l) <= rsum (map g l))%R.
Proof. intros H. induction l as [|x l IH]; [apply Rle_refl|]. cbn [map]. rewrite !rsum_cons. specialize (IH (fun y Hy => H y (or_intror Hy))). pose proof (H x (or_introl eq_refl)). lra. Qed.
Lemma rsum_map_nonneg {T} (f : T -> R) l : (forall x, In x l -> (0 <= f x)%R) -> (0 <= rsum (map f l))%R.
Proof. intros H. induction l as [|x l IH]; [apply Rle_refl|]. cbn [map]. rewrite !rsum_cons. specialize (IH (fun y Hy => H y (or_intror Hy))). pose proof (H x (or_introl eq_refl)). lra. Qed.
Lemma rsum_filter {T} (p : T -> bool) (f : T -> R) l : rsum (map f (filter p l)) = rsum (map (fun x => if p x then f x else 0%R) l).
Proof. induction l as [|x l IH]; [reflexivity|]. cbn [filter map]. destruct (p x); cbn [map]; rewrite ?rsum_cons, IH; [reflexivity | ring]. Qed.

Lemma leaves_ext X (x y : Z -> R) c f : x f = y f -> leaves X x c f = leaves X y c f.
Proof. intros E. unfold leaves. rewrite E. reflexivity. Qed.
Lemma leaves_scal X k (x : Z -> R) c f : leaves X (fun f => k * x f)%R c f = (k * leaves X x c f)%R.
Proof. unfold leaves. destruct (cell0 X f =? c), ((fv_label X f =? 0) && (cell1 X f =? c))%bool; ring. Qed.

(** total over the cells of a face-wise residual *)
Lemma residual_total X (x : Z -> R) nc l : (forall f, In f l -> 0 <= cell0 X f < nc /\ (fv_label X f = 0 -> 0 <= cell1 X f < nc)) ->
  rsum (map (fun c => rsum (map (leaves X x c) l)) (range nc)) = rsum (map x (filter (fun f => negb (fv_label X f =? 0)) l)).
Proof.
  intros H. rewrite (rsum_swap (fun c f => leaves X x c f)). rewrite rsum_filter. apply rsum_map_ext. intros f Hf. destruct (H f Hf) as (H0 & H1). rewrite leaves_total by assumption. destruct (fv_label X f =? 0); reflexivity.
Qed.

Section S1.
Context (dim : Z) (X : fvdata) (L : fvlists).
Hypothesis WF : wf_fvdata dim X.
Hypothesis WL : wf_lists dim X L.
Notation nc := (zlen (fv_centerc X)).
Notation nf := (zlen (fv_cellid X)).

Lemma all_faces_face f : In f (all_faces L) -> 0 <= f < nf.
Proof. destruct WL as (W1 & W2 & W3 & W4). unfold all_faces. rewrite !in_app_iff. intros [H|[H|[H|H]]]; [apply (W1 f H) | apply (W2 f H) | apply (W3 f H) | apply (W4 f H)]. Qed.
Lemma periodic_label l : is_periodic dim l = true -> l <> 0 /\ l <> 10.
Proof. unfold is_periodic, is_x, is_y, is_z. lia. Qed.
Lemma outer_filter : filter (fun f => negb (fv_label X f =? 0)) (all_faces L) = outer_faces L.
Proof.
  destruct WL as (W1 & W2 & W3 & W4). unfold all_faces, outer_faces. rewrite filter_app.
  assert (F0 : forall l, (forall f, In f l -> fv_label X f = 0) -> filter (fun f => negb (fv_label X f =? 0)) l = []).
  { induction l as [|f l IH]; intros H; [reflexivity|]. cbn [filter]. rewrite (H f (or_introl eq_refl)). cbn. apply IH. intros; apply H; right; assumption. }
  assert (F1 : forall l, (forall f, In f l -> fv_label X f <> 0) -> filter (fun f => negb (fv_label X f =? 0)) l = l).
  { induction l as [|f l IH]; intros H; [reflexivity|]. cbn [filter]. replace (fv_label X f =? 0) with false by (specialize (H f (or_introl eq_refl)); lia). cbn [negb]. f_equal. apply IH. intros; apply H; right; assumption. }
  rewrite F0 by (intros f Hf; apply W1; exact Hf). cbn [app]. apply F1. intros f. rewrite !in_app_iff. intros [H|[H|H]].
  - apply periodic_label. apply W2. exact H.
  - pose proof (proj2 (W3 f H)). lia.
  - pose proof (proj2 (W4 f H)). lia.
Qed.
Lemma face_cells f : 0 <= f < nf -> 0 <= cell0 X f < nc /\ (fv_label X f = 0 -> 0 <= cell1 X f < nc).
Proof. intros Hf. destruct (wfv_face _ _ WF f Hf) as (_ & H0 & H1 & _). split; [exact H0 | intros E; apply H1; left; exact E]. Qed.

Lemma c29 order A vel : wf_advected X A vel -> exists rez, convective dim order X L A vel nc = Ok rez /\ zlen rez = nc /\
  (forall c, 0 <= c < nc -> nthZ 0%R rez c = (- rsum (map (leaves X (fv_flux dim order X A vel) c) (all_faces L)))%R) /\
  rsum rez = (- rsum (map (fv_flux dim order X A vel) (outer_faces L)))%R.
Proof.
  intros WA. destruct (convective_ok dim order X L A vel WF WL WA) as (rez & E & Hl & H). exists rez. split; [exact E|]. split; [exact Hl|]. split; [exact H|].
  rewrite rsum_nthZ, Hl. rewrite (rsum_map_ext _ (fun c => - rsum (map (leaves X (fv_flux dim order X A vel) c) (all_faces L)))%R) by (intros c Hc; apply H, in_range; exact Hc).
  rewrite rsum_map_opp. f_equal. rewrite residual_total by (intros f Hf; apply face_cells, all_faces_face; exact Hf). rewrite outer_filter. reflexivity.
Qed.

Lemma dissip_ok grads D : zlen grads = nf -> exists r, dissipative (fv_cellid X) (fv_normal X) grads (fv_name X) D nc = Ok r /\ zlen r = nc /\
  forall c, 0 <= c < nc -> nthZ 0%R r c = rsum (map (leaves X (diffusion X grads D) c) (range nf)).
Proof.
  intros HG. unfold dissipative.
  destruct (foldM_sum (dissip_face (fv_cellid X) (fv_normal X) grads (fv_name X) D) (fun a => a) (leaves X (diffusion X grads D)) nc (range nf) (zeros_like 0%R nc)) as (r & E & Lr & P).
  - apply zlen_zeros_like, zlen_nonneg.
  - intros a f Hf Ha. apply in_range in Hf. destruct (wfv_len _ _ WF) as (L1 & L2 & L3 & L4 & L5). destruct (wfv_face _ _ WF f Hf) as (R1 & R2 & R3 & _).
    unfold dissip_face, get2. rewrite (get_nthZ vzero (fv_normal X)) by lia. cbn [bind]. rewrite (get_nthZ vzero grads) by lia. cbn [bind]. cbv zeta. rewrite (get_nthZ 0 (fv_name X)) by lia. cbn [bind].
    rewrite (get_nthZ [] (fv_cellid X)) by lia. cbn [bind]. rewrite (get_nthZ 0 (nthZ [] (fv_cellid X) f) 0) by lia. cbn [bind]. fold (cell0 X f) (fv_label X f).
    set (q := (px D * px _ * px _ + _ + _)%R). assert (Eq : q = diffusion X grads D f) by (unfold q, diffusion, vdot; cbn [px py pz]; ring). rewrite Eq. unfold leaves. destruct (fv_label X f =? 0) eqn:E0; cbn [andb].
    + assert (R4 : 0 <= cell1 X f < nc) by (apply R3; left; lia). rewrite add_at_ok by lia. cbn [bind]. rewrite (get_nthZ 0 (nthZ [] (fv_cellid X) f) 1) by lia. cbn [bind]. fold (cell1 X f).
      rewrite add_at_ok by (rewrite zlen_upd; lia). eexists. split; [reflexivity|]. split; [rewrite !zlen_upd; exact Ha|].
      intros c Hc. rewrite nthZ_add by (rewrite ?zlen_upd; lia). rewrite nthZ_add by lia. destruct (cell0 X f =? c), (cell1 X f =? c); ring.
    + rewrite add_at_ok by lia. eexists. split; [reflexivity|]. split; [rewrite !zlen_upd; exact Ha|]. intros c Hc. rewrite nthZ_add by lia. destruct (cell0 X f =? c); ring.
  - exists r. split; [exact E|]. split; [exact Lr|]. intros c Hc. rewrite P by exact Hc. rewrite nthZ_zeros by exact Hc. ring.
Qed.
Lemma c30 grads D : zlen grads = nf -> exists r, dissipative (fv_cellid X) (fv_normal X) grads (fv_name X) D nc = Ok r /\ zlen r = nc /\
  (forall c, 0 <= c < nc -> nthZ 0%R r c = rsum (map (leaves X (diffusion X grads D) c) (range nf))) /\
  rsum r = rsum (map (diffusion X grads D) (filter (fun f => negb (fv_label X f =? 0)) (range nf))).
Proof.
  intros HG. destruct (dissip_ok grads D HG) as (r & E & Hl & H). exists r. split; [exact E|]. split; [exact Hl|]. split; [exact H|].
  rewrite rsum_nthZ, Hl. rewrite (rsum_map_ext _ (fun c => rsum (map (leaves X (diffusion X grads D) c) (range nf)))%R) by (intros c Hc; apply H, in_range; exact Hc).
  apply residual_total. intros f Hf. apply face_cells, in_range. exact Hf.
Qed.

(** the explicit step *)
Lemma update_ok (w rez dis src vol : list R) dt : zlen rez = zlen w -> zlen dis = zlen w -> zlen src = zlen w -> zlen vol = zlen w -> (forall c, 0 <= c < zlen w -> nthZ 0%R vol c <> 0%R) ->
  exists r, update_new_value w rez dis src vol dt = Ok r /\ zlen r = zlen w /\
  forall c, 0 <= c < zlen w -> nthZ None r c = Some (nthZ 0 w c + dt * ((nthZ 0 rez c + nthZ 0 dis c) / nthZ 0 vol c + nthZ 0 src c))%R.
Proof.
  intros H1 H2 H3 H4 HV. unfold update_new_value. eexists. split; [|split].
  - apply (mapM_ok _ (fun c => Some (nthZ 0 w c + dt * ((nthZ 0 rez c + nthZ 0 dis c) / nthZ 0 vol c + nthZ 0 src c))%R)). intros c Hc. apply in_range in Hc. rewrite !(get_nthZ 0%R) by lia. cbn [bind]. rewrite odiv_some by (apply HV; exact Hc). reflexivity.
  - rewrite zlen_map, zlen_range by apply zlen_nonneg. reflexivity.
  - intros c Hc. rewrite (nthZ_map _ 0) by (rewrite zlen_range; lia). rewrite nthZ_range by lia. reflexivity.
Qed.

Lemma vsum_px {T} (f : T -> pt) l : px (vsum (map f l)) = rsum (map (fun t => px (f t)) l).
Proof. induction l as [|t l IH]; [reflexivity|]. cbn [map vsum fold_right]. rewrite rsum_cons. cbn [vadd px]. fold (vsum (map f l)). rewrite IH. reflexivity. Qed.
Lemma vsum_py {T} (f : T -> pt) l : py (vsum (map f l)) = rsum (map (fun t => py (f t)) l).
Proof. induction l as [|t l IH]; [reflexivity|]. cbn [map vsum fold_right]. rewrite rsum_cons. cbn [vadd py]. fold (vsum (map f l)). rewrite IH. reflexivity. Qed.
Lemma vsum_pz {T} (f : T -> pt) l : pz (vsum (map f l)) = rsum (map (fun t => pz (f t)) l).
Proof. induction l as [|t l IH]; [reflexivity|]. cbn [map vsum fold_right]. rewrite rsum_cons. cbn [vadd pz]. fold (vsum (map f l)). rewrite IH. reflexivity. Qed.

(** a constant velocity has no divergence in a closed cell *)
Lemma closed_div vel u c : (forall f, In f (all_faces L) -> nthZ vzero vel f = u) -> closed_cell X L c -> rsum (map (leaves X (throughput X vel) c) (all_faces L)) = 0%R.
Proof.
  intros Hu HC. unfold closed_cell in HC. pose proof (f_equal px HC) as Hx. pose proof (f_equal py HC) as Hy. pose proof (f_equal pz HC) as Hz. clear HC. rewrite vsum_px in Hx. rewrite vsum_py in Hy. rewrite vsum_pz in Hz. cbn [px py pz vzero] in Hx, Hy, Hz.
  rewrite (rsum_map_ext _ (fun f => px u * leaves X (fun f => px (nthZ vzero (fv_normal X) f)) c f + (py u * leaves X (fun f => py (nthZ vzero (fv_normal X) f)) c f + pz u * leaves X (fun f => pz (nthZ vzero (fv_normal X) f)) c f))%R).
  - rewrite rsum_map_add, rsum_map_add, !rsum_map_scal.
    change (rsum (map (leaves X (fun f => px (nthZ vzero (fv_normal X) f)) c) (all_faces L)) = 0%R) in Hx. change (rsum (map (leaves X (fun f => py (nthZ vzero (fv_normal X) f)) c) (all_faces L)) = 0%R) in Hy.
    change (rsum (map (leaves X (fun f => pz (nthZ vzero (fv_normal X) f)) c) (all_faces L)) = 0%R) in Hz. rewrite Hx, Hy, Hz. ring.
  - intros f Hf. unfold leaves, throughput. rewrite (Hu f Hf). unfold vdot. destruct (cell0 X f =? c), ((fv_label X f =? 0) && (cell1 X f =? c))%bool; ring.
Qed.

Lemma reconstruct_const k order w psi g x y : w = k -> order = 1 \/ g = vzero -> reconstruct dim order w psi g x y = k.
Proof.
  intros -> [-> | ->]; unfold reconstruct; [ring|]. replace (in_space dim vzero) with vzero by (unfold in_space; destruct (dim =? 2); reflexivity). unfold vdot, vzero. cbn [px py pz]. ring.
Qed.
Lemma const_flux k order A vel f : wf_advected X A vel -> constant_field L k order A -> In f (all_faces L) -> fv_flux dim order X A vel f = (k * throughput X vel f)%R.
Proof.
  intros WA (K1 & K2 & K3 & K4) Hf. pose proof (all_faces_face f Hf) as Hr. destruct WA as (A1 & A2 & A3 & A4 & A5 & A6 & A7 & A8).
  destruct (wfv_face _ _ WF f Hr) as (_ & R2 & R3 & R4).
  assert (Kc : forall c, 0 <= c < nc -> nthZ 0%R (ad_c A) c = k) by (intros c Hc; apply K1, nthZ_In; lia).
  assert (Kg : forall c, 0 <= c < nc -> order = 1 \/ nthZ vzero (ad_grad A) c = vzero) by (intros c Hc; destruct K4 as [->|(K & _)]; [left; reflexivity | right; apply K, nthZ_In; lia]).
  assert (EL : left_state dim order X A f = k) by (unfold left_state; apply reconstruct_const; [apply Kc; exact R2 | apply Kg; exact R2]).
  assert (ER : right_state dim order X A f = k).
  { unfold right_state. destruct (fv_label X f =? 0) eqn:E0; [assert (R5 : 0 <= cell1 X f < nc) by (apply R3; left; lia); apply reconstruct_const; [apply Kc; exact R5 | apply Kg; exact R5]|].
    destruct (is_periodic dim (fv_label X f)) eqn:Ep; [assert (R5 : 0 <= cell1 X f < nc) by (apply R3; right; reflexivity); apply reconstruct_const; [apply Kc; exact R5 | apply Kg; exact R5]|].
    destruct (fv_label X f =? 10) eqn:E1.
    - assert (R5 : 0 <= nthZ 0 (fv_halofid X) f < zlen (fv_centerh X)) by (apply R4; lia). apply reconstruct_const; [apply K2, nthZ_In; lia|]. destruct K4 as [->|(_ & K)]; [left; reflexivity | right; apply K, nthZ_In; lia].
    - apply K3. destruct WL as (W1 & W2 & W3 & W4). unfold all_faces in Hf. rewrite !in_app_iff in Hf. destruct Hf as [H|[H|[H|H]]]; [|  | | exact H]; exfalso; [pose proof (proj2 (W1 f H)); lia | pose proof (proj2 (W2 f H)); congruence | pose proof (proj2 (W3 f H)); lia]. }
  unfold fv_flux. rewrite EL, ER. destruct (Rle_dec _ _); ring.
Qed.
Lemma c32 k u order A vel : wf_advected X A vel -> constant_field L k order A -> (forall f, In f (all_faces L) -> nthZ vzero vel f = u) ->
  exists rez, convective dim order X L A vel nc = Ok rez /\ zlen rez = nc /\ forall c, 0 <= c < nc -> closed_cell X L c -> nthZ 0%R rez c = 0%R.
Proof.
  intros WA K Hu. destruct (convective_ok dim order X L A vel WF WL WA) as (rez & E & Hl & H). exists rez. split; [exact E|]. split; [exact Hl|]. intros c Hc HC. rewrite H by exact Hc.
  rewrite (rsum_map_ext _ (fun f => k * leaves X (throughput X vel) c f)%R).
  - rewrite rsum_map_scal, (closed_div vel u c Hu HC). ring.
  - intros f Hf. rewrite <- leaves_scal. apply leaves_ext. apply const_flux; assumption.
Qed.

(** C34: what a cell gains through a face at order one *)
Lemma gain A vel c f : In f (all_faces L) ->
  (- leaves X (fv_flux dim 1 X A vel) c f = - leaves X (throughput X vel) c f * nthZ 0 (ad_c A) c + Rmax 0 (- leaves X (throughput X vel) c f) * (beyond dim X A c f - nthZ 0 (ad_c A) c))%R.
Proof.
  intros Hf.
  assert (EL : left_state dim 1 X A f = nthZ 0%R (ad_c A) (cell0 X f)) by (unfold left_state, reconstruct; ring).
  assert (ER : cell0 X f = c -> right_state dim 1 X A f = beyond dim X A c f).
  { intros E. unfold right_state, beyond, reconstruct. rewrite E, Z.eqb_refl. destruct (fv_label X f =? 0); cbn [orb]; [ring|]. destruct (is_periodic dim (fv_label X f)); [ring|]. destruct (fv_label X f =? 10); [ring | reflexivity]. }
  assert (ER0 : fv_label X f = 0 -> right_state dim 1 X A f = nthZ 0%R (ad_c A) (cell1 X f)) by (intros E; unfold right_state, reconstruct; rewrite E; cbn [Z.eqb]; ring).
  set (b := beyond dim X A c f) in *. unfold leaves, fv_flux. rewrite EL. set (t := throughput X vel f).
  destruct (cell0 X f =? c) eqn:E0.
  - rewrite (ER ltac:(lia)). replace (cell0 X f) with c by lia. destruct ((fv_label X f =? 0) && (cell1 X f =? c))%bool.
    + replace (- (t - t))%R with 0%R by ring. rewrite Rmax_left by lra. ring.
    + destruct (Rle_dec 0 t); [rewrite Rmax_left by lra | rewrite Rmax_right by lra]; ring.
  - assert (Eb : b = nthZ 0%R (ad_c A) (cell0 X f)) by (unfold b, beyond; rewrite E0; reflexivity).
    destruct ((fv_label X f =? 0) && (cell1 X f =? c))%bool eqn:E1.
    + rewrite ER0 by lia. replace (cell1 X f) with c by lia. rewrite Eb. destruct (Rle_dec 0 t); [rewrite Rmax_right by lra | rewrite Rmax_left by lra]; ring.
    + replace (- (0 - 0))%R with 0%R by ring. rewrite Rmax_left by lra. ring.
Qed.
Lemma not_touching vel c f : ~ touches_face X c f -> leaves X (throughput X vel) c f = 0%R.
Proof. intros H. unfold leaves, touches_face in *. replace (cell0 X f =? c) with false by lia. replace ((fv_label X f =? 0) && (cell1 X f =? c))%bool with false by lia. ring. Qed.
Lemma touches_face_dec c f : {touches_face X c f} + {~ touches_face X c f}.
Proof. unfold touches_face. destruct (Z.eq_dec (cell0 X f) c), (Z.eq_dec (fv_label X f) 0), (Z.eq_dec (cell1 X f) c); (left; lia) || (right; lia). Qed.

Lemma c34 A vel vol dt : wf_advected X A vel -> zlen vol = nc -> (forall c, 0 <= c < nc -> (0 < nthZ 0 vol c)%R) -> (0 <= dt)%R ->
  exists rez r, convective dim 1 X L A vel nc = Ok rez /\ update_new_value (ad_c A) rez (zeros_like 0%R nc) (zeros_like 0%R nc) vol dt = Ok r /\ zlen r = nc /\
  forall c lo hi, 0 <= c < nc -> rsum (map (leaves X (throughput X vel) c) (all_faces L)) = 0%R -> (dt * inflow X L vel c <= nthZ 0 vol c)%R ->
    (lo <= nthZ 0 (ad_c A) c <= hi)%R -> (forall f, In f (all_faces L) -> touches_face X c f -> (lo <= beyond dim X A c f <= hi)%R) ->
    exists x, nthZ None r c = Some x /\ (lo <= x <= hi)%R.
Proof.
  intros WA HV HP Hdt. destruct (convective_ok dim 1 X L A vel WF WL WA) as (rez & E & Hl & H). pose proof WA as (A1 & _). exists rez.
  destruct (update_ok (ad_c A) rez (zeros_like 0%R nc) (zeros_like 0%R nc) vol dt) as (r & Er & Lr & P); try (rewrite ?zlen_zeros_like by apply zlen_nonneg; lia).
  { intros c Hc. specialize (HP c). rewrite <- A1 in HP. specialize (HP Hc). lra. }
  exists r. split; [exact E|]. split; [exact Er|]. split; [lia|]. intros c lo hi Hc HD HI Hw Hn. rewrite P by lia. eexists. split; [reflexivity|]. rewrite !nthZ_zeros by exact Hc. rewrite H by exact Hc. specialize (HP c Hc).
  set (w := nthZ 0%R (ad_c A) c) in *. set (v := nthZ 0%R vol c) in *.
  set (G := rsum (map (fun f => Rmax 0 (- leaves X (throughput X vel) c f) * (beyond dim X A c f - w))%R (all_faces L))).
  assert (EG : (- rsum (map (leaves X (fv_flux dim 1 X A vel) c) (all_faces L)))%R = G).
  { rewrite <- rsum_map_opp. rewrite (rsum_map_ext _ (fun f => (- w) * leaves X (throughput X vel) c f + Rmax 0 (- leaves X (throughput X vel) c f) * (beyond dim X A c f - w))%R) by (intros f Hf; rewrite gain by exact Hf; fold w; ring).
    rewrite rsum_map_add, rsum_map_scal, HD. unfold G. ring. }
  rewrite EG. replace (w + dt * ((G + 0) / v + 0))%R with (w + dt * G / v)%R by (unfold Rdiv; ring).
  assert (B : (inflow X L vel c * (lo - w) <= G <= inflow X L vel c * (hi - w))%R).
  { unfold inflow, G. rewrite !(Rmult_comm (rsum _)), <- !rsum_map_scal. split; apply rsum_map_le; intros f Hf; (destruct (touches_face_dec c f) as [T|T]; [specialize (Hn f Hf T); pose proof (Rmax_l 0 (- leaves X (throughput X vel) c f)); rewrite (Rmult_comm (_ - w)); apply Rmult_le_compat_l; lra | rewrite (not_touching vel c f T); replace (- 0)%R with 0%R by ring; rewrite Rmax_left by lra; lra]). }
  assert (I0 : (0 <= inflow X L vel c)%R) by (apply rsum_map_nonneg; intros; apply Rmax_l). set (I := inflow X L vel c) in *.
  assert (B1 : (dt * (I * (lo - w)) <= dt * G <= dt * (I * (hi - w)))%R) by (split; apply Rmult_le_compat_l; lra).
  assert (B2 : ((lo - w) * v <= dt * G <= (hi - w) * v)%R).
  { assert (0 <= dt * I)%R by (apply Rmult_le_pos; lra). split.
    - apply Rle_trans with (dt * I * (lo - w))%R; [|lra]. assert (0 <= (v - dt * I) * (w - lo))%R by (apply Rmult_le_pos; lra). lra.
    - apply Rle_trans with (dt * I * (hi - w))%R; [lra|]. assert (0 <= (v - dt * I) * (hi - w))%R by (apply Rmult_le_pos; lra). lra. }
  split.
  - assert (lo - w <= dt * G / v)%R; [|lra]. apply Rmult_le_reg_r with v; [exact HP|]. unfold Rdiv. rewrite (Rmult_assoc _ (/ v)), Rinv_l, Rmult_1_r by lra. lra.
  - assert (dt * G / v <= hi - w)%R; [|lra]. apply Rmult_le_reg_r with v; [exact HP|]. unfold Rdiv. rewrite (Rmult_assoc _ (/ v)), Rinv_l, Rmult_1_r by lra. lra.
Qed.

Lemma c34_cfl u vel faceid volume c : lists_faces X L faceid -> (forall f, In f (all_faces L) -> nthZ vzero vel f = u) -> 0 <= c < nc ->
  (inflow X L vel c <= rsum (map (fun f => Rabs (vdot u (nthZ vzero (fv_normal X) f)) + 0 * nthZ 0 volume c)%R (nthZ [] faceid c)))%R.
Proof.
  intros (F1 & F2 & F3) Hu Hc. rewrite (rsum_perm _ _ (Permutation_map _ (F3 c ltac:(lia)))), rsum_filter. apply rsum_map_le. intros f Hf. unfold leaves, throughput. rewrite (Hu f Hf). set (t := vdot u _).
  pose proof (Rle_abs t). pose proof (Rle_abs (- t)). rewrite Rabs_Ropp in H0. pose proof (Rabs_pos t).
  destruct (cell0 X f =? c) eqn:E0; cbn [orb].
  - destruct ((fv_label X f =? 0) && (cell1 X f =? c))%bool; apply Rmax_lub; lra.
  - destruct ((fv_label X f =? 0) && (cell1 X f =? c))%bool; apply Rmax_lub; lra.
Qed.
End S1.

(** C33 *)
Section S2.
Context (dim : Z) (vel normal : list pt) (mesure volume : list R) (faceid : list (list Z)) (D : pt).
Hypothesis WT : wf_timestep dim vel normal mesure volume faceid.
Notation ws := (wave_speed vel normal volume faceid D).

Lemma cell_lam_ok i : 0 <= i < zlen faceid -> cell_lam dim vel normal mesure volume faceid D i = Ok (Some (ws i)).
Proof.
  intros Hi. destruct (wt_len _ _ _ _ _ _ WT) as (L1 & L2 & L3). destruct (wt_row _ _ _ _ _ _ WT i Hi) as (R1 & R2). pose proof (wt_vol _ _ _ _ _ _ WT i Hi) as V.
  unfold cell_lam, get2. rewrite (get_nthZ [] faceid) by exact Hi. cbn [bind].
  rewrite (foldM_range_get (fun lam f => do n <- get normal f; do u <- get vel i; do m <- get mesure f; do vol <- get volume i; _) (nthZ [] faceid i)) by (symmetry; exact R1).
  unfold wave_speed. set (row := nthZ [] faceid i) in *.
  match goal with |- foldM ?g row _ = _ => set (step := g) end.
  set (sp := fun f => let n := nthZ vzero normal f in (Rabs (vdot (nthZ vzero vel i) n) + (px D + py D + pz D) * vdot n n / nthZ 0%R volume i)%R).
  assert (G0 : forall f a, In f row -> step (Some a) f = Ok (Some (a + sp f)%R)).
  { intros f a Hf. destruct (R2 f Hf) as (Rf & Mf). unfold step. rewrite (get_nthZ vzero normal) by exact Rf. cbn [bind]. rewrite (get_nthZ vzero vel) by lia. cbn [bind]. rewrite (get_nthZ 0%R mesure) by lia. cbn [bind]. rewrite (get_nthZ 0%R volume) by lia. cbn [bind]. cbv zeta.
    unfold sp. cbv zeta. set (n := nthZ vzero normal f). set (u := nthZ vzero vel i). rewrite !odiv_some by lra. cbn [oadd]. f_equal. f_equal.
    fold (vdot u n). fold (vdot n n). rewrite pow2_sqrt by (unfold vdot; pose proof (Rle_0_sqr (px n)); pose proof (Rle_0_sqr (py n)); pose proof (Rle_0_sqr (pz n)); unfold Rsqr in *; lra).
    field. split; lra. }
  assert (G : forall l a, (forall f, In f l -> In f row) -> foldM step l (Some a) = Ok (Some (a + rsum (map sp l))%R)).
  { induction l as [|f l IH]; intros a Hsub; [cbn [foldM map]; unfold rsum; cbn [fold_right]; rewrite Rplus_0_r; reflexivity|].
    cbn [foldM]. rewrite G0 by (apply Hsub; left; reflexivity). cbn [bind]. rewrite IH by (intros g Hg; apply Hsub; right; exact Hg). f_equal. f_equal. cbn [map]. rewrite rsum_cons. ring. }
  rewrite G by (intros f Hf; exact Hf). rewrite Rplus_0_l. reflexivity.
Qed.
Lemma ws_nonneg i : (0 <= px D + py D + pz D)%R -> 0 <= i < zlen faceid -> (0 <= ws i)%R.
Proof.
  intros HD Hi. pose proof (wt_vol _ _ _ _ _ _ WT i Hi) as V. apply rsum_map_nonneg. intros f _. cbv zeta. pose proof (Rabs_pos (vdot (nthZ vzero vel i) (nthZ vzero normal f))).
  assert (0 <= (px D + py D + pz D) * vdot (nthZ vzero normal f) (nthZ vzero normal f) / nthZ 0%R volume i)%R; [|lra].
  apply Rmult_le_pos; [|left; apply Rinv_0_lt_compat; exact V]. apply Rmult_le_pos; [exact HD|]. unfold vdot. set (n := nthZ vzero normal f). pose proof (Rle_0_sqr (px n)); pose proof (Rle_0_sqr (py n)); pose proof (Rle_0_sqr (pz n)); unfold Rsqr in *; lra.
Qed.
Lemma c33 cfl : (0 < cfl)%R -> (0 <= px D + py D + pz D)%R -> exists dt, time_step dim vel normal cfl mesure volume faceid D = Ok (Some dt) /\ (0 < dt <= 1000000)%R /\
  (forall i, 0 <= i < zlen faceid -> (0 <= ws i /\ dt * ws i <= cfl * nthZ 0 volume i)%R /\ (ws i <> 0 -> dt <= cfl * nthZ 0 volume i / ws i)%R) /\
  (dt = 1000000%R \/ exists i, 0 <= i < zlen faceid /\ (ws i <> 0)%R /\ dt = (cfl * nthZ 0 volume i / ws i)%R).
Proof.
  intros Hc HD. unfold time_step.
  destruct (foldM_range_inv (fun n o => exists dt, o = Some dt /\ (0 < dt <= 1000000)%R /\
    (forall i, 0 <= i < n -> (ws i <> 0 -> dt <= cfl * nthZ 0 volume i / ws i)%R) /\
    (dt = 1000000%R \/ exists i, 0 <= i < n /\ (ws i <> 0)%R /\ dt = (cfl * nthZ 0 volume i / ws i)%R))
    (fun dt i => do lam <- cell_lam dim vel normal mesure volume faceid D i; do vol <- get volume i; ret (min_quot dt (cfl * vol) lam)) (zlen faceid) (Some 1000000%R)) as (o & E & dt & -> & B & F & M).
  - apply zlen_nonneg.
  - exists 1000000%R. split; [reflexivity|]. split; [lra|]. split; [intros; lia | left; reflexivity].
  - intros i o Hi (dt & -> & B & F & M). rewrite cell_lam_ok by exact Hi. cbn [bind]. destruct (wt_len _ _ _ _ _ _ WT) as (L1 & L2 & L3). rewrite (get_nthZ 0%R) by lia. cbn [bind]. eexists. split; [reflexivity|].
    pose proof (wt_vol _ _ _ _ _ _ WT i Hi) as V. pose proof (ws_nonneg i HD Hi) as W. assert (P : (0 < cfl * nthZ 0 volume i)%R) by (apply Rmult_lt_0_compat; assumption).
    unfold min_quot. destruct (Req_EM_T (ws i) 0) as [Z0|NZ].
    + destruct (Rlt_dec 0 (cfl * nthZ 0 volume i)%R) as [_|N]; [|contradiction]. exists dt. split; [reflexivity|]. split; [exact B|]. split.
      * intros j Hj Nj. destruct (Z.eq_dec j i) as [-> |]; [contradiction | apply F; [lia | exact Nj]].
      * destruct M as [M|(j & Hj & Nj & M)]; [left; exact M | right; exists j; split; [lia | split; assumption]].
    + assert (Q : (0 < cfl * nthZ 0 volume i / ws i)%R) by (apply Rdiv_lt_0_compat; lra). eexists. split; [reflexivity|]. split; [split; [apply Rmin_glb_lt; lra | pose proof (Rmin_l dt (cfl * nthZ 0 volume i / ws i)%R); lra]|]. split.
      * intros j Hj Nj. destruct (Z.eq_dec j i) as [-> |]; [apply Rmin_r|]. eapply Rle_trans; [apply Rmin_l | apply F; [lia | exact Nj]].
      * unfold Rmin. destruct (Rle_dec _ _); [destruct M as [M|(j & Hj & Nj & M)]; [left; exact M | right; exists j; split; [lia | split; assumption]] | right; exists i; split; [lia | split; [exact NZ | reflexivity]]].
  - exists dt. split; [exact E|]. split; [exact B|]. split; [|exact M]. intros i Hi. pose proof (ws_nonneg i HD Hi) as W. split; [split; [exact W|] | exact (F i Hi)].
    pose proof (wt_vol _ _ _ _ _ _ WT i Hi) as V. assert (P : (0 < cfl * nthZ 0 volume i)%R) by (apply Rmult_lt_0_compat; assumption). destruct (Req_EM_T (ws i) 0) as [Z0|NZ]; [rewrite Z0; lra|]. specialize (F i Hi NZ).
    apply Rle_trans with (cfl * nthZ 0 volume i / ws i * ws i)%R; [apply Rmult_le_compat_r; assumption|]. unfold Rdiv. rewrite Rmult_assoc, Rinv_l, Rmult_1_r by exact NZ. apply Rle_refl.
Qed.
End S2.

(** periodic partners and the two sides of a face shared by two ranks *)
Lemma opposite_flux (t l r : R) : (- t * (if Rle_dec 0 (- t) then r else l) = - (t * if Rle_dec 0 t then l else r))%R.
Proof. destruct (Rle_dec 0 (- t)), (Rle_dec 0 t); try ring; [replace t with 0%R by lra; ring | exfalso; lra]. Qed.
Lemma partners_flux dim order X A vel f f' : is_periodic dim (fv_label X f) = true -> is_periodic dim (fv_label X f') = true -> partners dim X vel f f' ->
  fv_flux dim order X A vel f' = (- fv_flux dim order X A vel f)%R.
Proof.
  intros P P' (C0 & C1 & N & V & S1 & S2). unfold fv_flux.
  assert (T : throughput X vel f' = (- throughput X vel f)%R) by (unfold throughput; rewrite N, V; reflexivity). rewrite T.
  assert (EL : left_state dim order X A f' = right_state dim order X A f).
  { unfold left_state, right_state. rewrite P. destruct (periodic_label dim _ P) as (P0 & _). replace (fv_label X f =? 0) with false by lia. rewrite C0. unfold reconstruct. rewrite <- S1. reflexivity. }
  assert (ER : right_state dim order X A f' = left_state dim order X A f).
  { unfold left_state, right_state. rewrite P'. destruct (periodic_label dim _ P') as (P0 & _). replace (fv_label X f' =? 0) with false by lia. unfold reconstruct. rewrite S2, C1. reflexivity. }
  rewrite EL, ER. apply opposite_flux.
Qed.
Lemma two_ranks_flux dim order X A vel f X' A' vel' f' : fv_label X f = 10 -> fv_label X' f' = 10 -> two_sides X A vel f X' A' vel' f' ->
  fv_flux dim order X' A' vel' f' = (- fv_flux dim order X A vel f)%R.
Proof.
  intros P P' (N & V & C & S1 & S2). unfold fv_flux.
  assert (T : throughput X' vel' f' = (- throughput X vel f)%R) by (unfold throughput; rewrite N, V; reflexivity). rewrite T.
  assert (Hp : is_periodic dim 10 = false) by (unfold is_periodic, is_x, is_y, is_z; cbn; apply andb_false_r).
  unfold own_side, halo_side in S1, S2. injection S1 as a1 a2 a3 a4. injection S2 as b1 b2 b3 b4.
  assert (EL : left_state dim order X' A' f' = right_state dim order X A f) by (unfold left_state, right_state; rewrite P, Hp, C; cbn [Z.eqb Pos.eqb]; congruence).
  assert (ER : right_state dim order X' A' f' = left_state dim order X A f) by (unfold left_state, right_state; rewrite P', Hp, C; cbn [Z.eqb Pos.eqb]; congruence).
  rewrite EL, ER. apply opposite_flux.
Qed.
