(** * Proofs_fvm1: sums over faces (C29, C30). *)
From Verif Require Import Py PyLemmas Model_part Model_conn Spec_conn Model_geom Spec_geom Model_interp Spec_interp Model_fvm Spec_fvm Proofs_conn1 Proofs_interp1 Proofs_interp2.
From Coq Require Import Permutation Lra ZifyBool.
Open Scope Z_scope.

Lemma rsum_app l l' : rsum (l ++ l') = (rsum l + rsum l')%R.
Proof. induction l as [|x l IH]; cbn [app]; unfold rsum in *; cbn [fold_right]; [ring | rewrite IH; ring]. Qed.
Lemma rsum_perm l l' : Permutation l l' -> rsum l = rsum l'.
Proof. induction 1; cbn; try fold (rsum l) (rsum l'); try lra. all: unfold rsum in *; lra. Qed.
Lemma rsum_map_add {T} (f g : T -> R) l : rsum (map (fun x => f x + g x)%R l) = (rsum (map f l) + rsum (map g l))%R.
Proof. induction l as [|x l IH]; cbn; [ring|]. unfold rsum in *. rewrite IH. ring. Qed.
Lemma rsum_map_opp {T} (f : T -> R) l : rsum (map (fun x => - f x)%R l) = (- rsum (map f l))%R.
Proof. induction l as [|x l IH]; cbn; [ring|]. unfold rsum in *. rewrite IH. ring. Qed.
Lemma rsum_map_scal {T} k (f : T -> R) l : rsum (map (fun x => k * f x)%R l) = (k * rsum (map f l))%R.
Proof. induction l as [|x l IH]; cbn; [ring|]. unfold rsum in *. rewrite IH. ring. Qed.
Lemma rsum_map_zero {T} (f : T -> R) l : (forall x, In x l -> f x = 0%R) -> rsum (map f l) = 0%R.
Proof. intros H. induction l as [|x l IH]; cbn; [reflexivity|]. fold (rsum (map f l)). rewrite H by (left; reflexivity). rewrite IH by (intros; apply H; right; assumption). ring. Qed.
Lemma rsum_map_ext {T} (f g : T -> R) l : (forall x, In x l -> f x = g x) -> rsum (map f l) = rsum (map g l).
Proof. intros H. f_equal. apply map_ext_in. exact H. Qed.
Lemma rsum_swap {T U} (f : T -> U -> R) l l' : rsum (map (fun x => rsum (map (f x) l')) l) = rsum (map (fun y => rsum (map (fun x => f x y) l)) l').
Proof.
  induction l as [|x l IH]; cbn [map]; [symmetry; apply rsum_map_zero; reflexivity|].
  change (rsum (rsum (map (f x) l') :: map (fun x => rsum (map (f x) l')) l)) with (rsum (map (f x) l') + rsum (map (fun x => rsum (map (f x) l')) l))%R. rewrite IH.
  rewrite <- rsum_map_add. apply rsum_map_ext. intros y _. reflexivity.
Qed.
Lemma range_decomp n a : 0 <= a < n -> exists l l', range n = l ++ a :: l' /\ ~ In a l /\ ~ In a l'.
Proof.
  intros H. assert (Hin : In a (range n)) by (apply in_range; exact H). apply in_split in Hin as (l & l' & E). exists l, l'. split; [exact E|].
  pose proof (NoDup_range n) as N. rewrite E in N. apply NoDup_remove_2 in N. split; intros D; apply N, in_or_app; auto.
Qed.
Lemma rsum_delta n a x : 0 <= a < n -> rsum (map (fun c => if a =? c then x else 0%R) (range n)) = x.
Proof.
  intros H. destruct (range_decomp n a H) as (l & l' & E & N1 & N2). rewrite E, map_app, rsum_app. cbn [map]. change (rsum ?h) with (rsum h).
  rewrite rsum_map_zero by (intros c Hc; destruct (a =? c) eqn:Q; [exfalso; apply N1; replace a with c by lia; exact Hc | reflexivity]).
  unfold rsum at 1. cbn [fold_right]. fold (rsum (map (fun c => if a =? c then x else 0%R) l')). rewrite Z.eqb_refl.
  rewrite rsum_map_zero by (intros c Hc; destruct (a =? c) eqn:Q; [exfalso; apply N2; replace a with c by lia; exact Hc | reflexivity]). ring.
Qed.
Lemma rsum_nthZ l : rsum l = rsum (map (nthZ 0%R l) (range (zlen l))).
Proof. rewrite map_nthZ_range. reflexivity. Qed.

Lemma add_at_ok a i v : 0 <= i < zlen a -> add_at a i v = Ok (upd a i (nthZ 0%R a i + v)%R).
Proof. intros H. unfold add_at. rewrite (get_nthZ 0%R) by exact H. cbn [bind]. apply set_upd. exact H. Qed.
Lemma nthZ_add a i v c : 0 <= i < zlen a -> 0 <= c < zlen a -> nthZ 0%R (upd a i (nthZ 0%R a i + v)%R) c = (nthZ 0%R a c + if i =? c then v else 0)%R.
Proof.
  intros Hi Hc. destruct (i =? c) eqn:E.
  - replace c with i by lia. rewrite nthZ_upd_eq by exact Hi. reflexivity.
  - rewrite nthZ_upd_neq by lia. ring.
Qed.

(** a loop over faces that adds to each cell its share *)
Lemma foldM_sum {S} (f : S -> Z -> res S) (proj : S -> list R) (contrib : Z -> Z -> R) n l s0 : zlen (proj s0) = n ->
  (forall s i, In i l -> zlen (proj s) = n -> exists s', f s i = Ok s' /\ zlen (proj s') = n /\ forall c, 0 <= c < n -> nthZ 0%R (proj s') c = (nthZ 0%R (proj s) c + contrib c i)%R) ->
  exists s', foldM f l s0 = Ok s' /\ zlen (proj s') = n /\ forall c, 0 <= c < n -> nthZ 0%R (proj s') c = (nthZ 0%R (proj s0) c + rsum (map (contrib c) l))%R.
Proof.
  revert s0. induction l as [|i l IH]; intros s0 H0 H; [exists s0; cbn; split; [reflexivity | split; [exact H0 | intros; ring]]|].
  destruct (H s0 i (or_introl eq_refl) H0) as (s1 & E1 & L1 & P1). cbn [foldM]. rewrite E1. cbn [bind].
  destruct (IH s1 L1) as (s2 & E2 & L2 & P2); [intros s j Hj; apply H; right; exact Hj|]. exists s2. split; [exact E2|]. split; [exact L2|].
  intros c Hc. rewrite P2, P1 by exact Hc. cbn [map]. unfold rsum. cbn [fold_right]. ring.
Qed.

Lemma nthZ_zeros n c : 0 <= c < n -> nthZ 0%R (zeros_like 0%R n) c = 0%R.
Proof. intros H. apply nthZ_zeros_like. exact H. Qed.

Section Conv.
Context (dim order : Z) (X : fvdata) (L : fvlists) (A : advected) (vel : list pt).
Hypothesis WF : wf_fvdata dim X.
Hypothesis WL : wf_lists dim X L.
Hypothesis WA : wf_advected X A vel.
Notation nc := (zlen (fv_centerc X)).
Notation nf := (zlen (fv_cellid X)).
Notation flux := (fv_flux dim order X A vel).
Notation prj := (fun s : fvstate => fst (fst s)).

Lemma upwind_eq wl wr v n : compute_upwind_flux wl wr v n = (vdot v n * if Rle_dec 0 (vdot v n) then wl else wr)%R.
Proof. reflexivity. Qed.
Lemma extrap_eq w psi g x y : extrapolate dim order w psi g (disp dim y x) = reconstruct dim order w psi g x y.
Proof. unfold extrapolate, reconstruct, in_space, disp, vdot, vsub. destruct (dim =? 2); cbn [px py pz]; ring. Qed.

Lemma leaves_inner f c : fv_label X f = 0 -> (- leaves X flux c f)%R = ((if cell0 X f =? c then - flux f else 0) + (if cell1 X f =? c then flux f else 0))%R.
Proof. intros E. unfold leaves. rewrite E. cbn [Z.eqb andb]. destruct (cell0 X f =? c), (cell1 X f =? c); ring. Qed.
Lemma leaves_outer f c : fv_label X f <> 0 -> (- leaves X flux c f)%R = (if cell0 X f =? c then - flux f else 0)%R.
Proof. intros E. unfold leaves. replace (fv_label X f =? 0) with false by lia. cbn [andb]. destruct (cell0 X f =? c); ring. Qed.

Ltac gets := unfold get2; repeat (match goal with
  | |- context [get (fv_cellid X) ?i] => rewrite (get_nthZ [] (fv_cellid X) i) by lia
  | |- context [get (nthZ [] (fv_cellid X) ?f) 0] => rewrite (get_nthZ 0 (nthZ [] (fv_cellid X) f) 0) by lia; fold (cell0 X f)
  | |- context [get (nthZ [] (fv_cellid X) ?f) 1] => rewrite (get_nthZ 0 (nthZ [] (fv_cellid X) f) 1) by lia; fold (cell1 X f)
  | |- context [get ?l ?i] => rewrite (get_nthZ 0%R l i) by lia
  | |- context [get ?l ?i] => rewrite (get_nthZ vzero l i) by lia
  | |- context [get ?l ?i] => rewrite (get_nthZ 0 l i) by lia
  end; cbn [bind]).

Lemma inner_ok s f : In f (ls_inner L) -> zlen (prj s) = nc -> exists s', conv_inner dim order X A vel s f = Ok s' /\ zlen (prj s') = nc /\
  forall c, 0 <= c < nc -> nthZ 0%R (prj s') c = (nthZ 0%R (prj s) c + - leaves X flux c f)%R.
Proof.
  intros Hin Hs. destruct WL as (W1 & _). destruct (W1 f Hin) as (Hf & Hl). destruct (wfv_len _ _ WF) as (L1 & L2 & L3 & L4 & L5). destruct (wfv_face _ _ WF f Hf) as (R1 & R2 & R3 & _).
  specialize (R3 (or_introl Hl)). destruct WA as (A1 & A2 & A3 & A4 & A5 & A6 & A7 & A8). cbv beta in *. unfold conv_inner. gets. cbv zeta. rewrite !extrap_eq, upwind_eq.
  set (fl := (vdot _ _ * _)%R). assert (EF : fl = flux f) by (unfold fl, fv_flux, throughput, right_state, left_state; rewrite Hl; reflexivity). rewrite EF.
  rewrite add_at_ok by lia. cbn [bind]. rewrite add_at_ok by (rewrite zlen_upd; lia). cbn [bind]. eexists. split; [reflexivity|]. cbn [fst snd]. split; [rewrite !zlen_upd; exact Hs|].
  intros c Hc. rewrite nthZ_add by (rewrite ?zlen_upd; lia). rewrite nthZ_add by lia. rewrite leaves_inner by exact Hl. ring.
Qed.
Lemma periodic_ok s f : In f (ls_periodic L) -> zlen (prj s) = nc -> exists s', conv_periodic dim order X A vel s f = Ok s' /\ zlen (prj s') = nc /\
  forall c, 0 <= c < nc -> nthZ 0%R (prj s') c = (nthZ 0%R (prj s) c + - leaves X flux c f)%R.
Proof.
  intros Hin Hs. destruct WL as (_ & W1 & _). destruct (W1 f Hin) as (Hf & Hl). destruct (wfv_len _ _ WF) as (L1 & L2 & L3 & L4 & L5). destruct (wfv_face _ _ WF f Hf) as (R1 & R2 & R3 & _).
  specialize (R3 (or_intror Hl)). destruct WA as (A1 & A2 & A3 & A4 & A5 & A6 & A7 & A8). cbv beta in *. unfold conv_periodic. gets. fold (fv_label X f).
  set (l := fv_label X f) in *. assert (Hn0 : l <> 0) by (intros E; rewrite E in Hl; unfold is_periodic, is_x, is_y, is_z in Hl; cbn in Hl; lia).
  set (xf := nthZ vzero (fv_centerf X) f). set (x0 := nthZ vzero (fv_centerc X) (cell0 X f)). set (x1 := nthZ vzero (fv_centerc X) (cell1 X f)). set (sh := nthZ vzero (fv_shift X) (cell1 X f)).
  assert (EP : exists rr, periodic_r dim l xf x0 x1 sh = Some (disp dim xf x0, rr) /\ forall w psi g, extrapolate dim order w psi g rr = reconstruct dim order w psi g (image l x1 sh) xf).
  { unfold periodic_r. cbv zeta. fold (is_x l) (is_y l) (is_z l). unfold is_periodic in Hl.
    assert (Ey : is_x l = true -> is_y l = false /\ is_z l = false) by (unfold is_x, is_y, is_z; lia). assert (Ez : is_y l = true -> is_z l = false) by (unfold is_y, is_z; lia).
    destruct (is_x l) eqn:Ex; [destruct (Ey eq_refl) as (E2 & E3) | destruct (is_y l) eqn:E2; [pose proof (Ez eq_refl) as E3 | cbn [orb] in Hl; rewrite Hl; apply andb_true_iff in Hl as (Hd & E3)]];
      eexists; (split; [reflexivity|]); intros w psi g; unfold extrapolate, reconstruct, in_space, disp, image, vdot, vsub; rewrite Ex, E2, E3; (destruct (dim =? 2) eqn:D2; [try lia|]); cbn [px py pz]; ring. }
  destruct EP as (rr & EP & ER). rewrite EP, extrap_eq, ER, upwind_eq.
  set (fl := (vdot _ _ * _)%R). assert (EF : fl = flux f) by (unfold fl, fv_flux, throughput, right_state, left_state; fold l; replace (l =? 0) with false by lia; rewrite Hl; reflexivity). rewrite EF.
  rewrite add_at_ok by lia. cbn [bind]. eexists. split; [reflexivity|]. cbn [fst snd]. split; [rewrite !zlen_upd; exact Hs|].
  intros c Hc. rewrite nthZ_add by lia. rewrite leaves_outer by exact Hn0. reflexivity.
Qed.
Lemma halo_ok s f : In f (ls_halo L) -> zlen (prj s) = nc -> exists s', conv_halo dim order X A vel s f = Ok s' /\ zlen (prj s') = nc /\
  forall c, 0 <= c < nc -> nthZ 0%R (prj s') c = (nthZ 0%R (prj s) c + - leaves X flux c f)%R.
Proof.
  intros Hin Hs. destruct WL as (_ & _ & W1 & _). destruct (W1 f Hin) as (Hf & Hl). destruct (wfv_len _ _ WF) as (L1 & L2 & L3 & L4 & L5). destruct (wfv_face _ _ WF f Hf) as (R1 & R2 & _ & R3).
  specialize (R3 Hl). destruct WA as (A1 & A2 & A3 & A4 & A5 & A6 & A7 & A8). cbv beta in *. unfold conv_halo. gets. cbv zeta. rewrite !extrap_eq, upwind_eq.
  set (fl := (vdot _ _ * _)%R). assert (EF : fl = flux f).
  { unfold fl, fv_flux, throughput, right_state, left_state. rewrite Hl. replace (is_periodic dim 10) with false by (unfold is_periodic, is_x, is_y, is_z; cbn; lia). reflexivity. } rewrite EF.
  rewrite add_at_ok by lia. cbn [bind]. eexists. split; [reflexivity|]. cbn [fst snd]. split; [rewrite !zlen_upd; exact Hs|].
  intros c Hc. rewrite nthZ_add by lia. rewrite leaves_outer by lia. reflexivity.
Qed.
Lemma boundary_ok s f : In f (ls_boundary L) -> zlen (prj s) = nc -> exists s', conv_boundary dim order X A vel s f = Ok s' /\ zlen (prj s') = nc /\
  forall c, 0 <= c < nc -> nthZ 0%R (prj s') c = (nthZ 0%R (prj s) c + - leaves X flux c f)%R.
Proof.
  intros Hin Hs. destruct WL as (_ & _ & _ & W1). destruct (W1 f Hin) as (Hf & Hl). destruct (wfv_len _ _ WF) as (L1 & L2 & L3 & L4 & L5). destruct (wfv_face _ _ WF f Hf) as (R1 & R2 & _).
  destruct WA as (A1 & A2 & A3 & A4 & A5 & A6 & A7 & A8). pose proof (wfv_dim _ _ WF) as Hd. cbv beta in *. unfold conv_boundary. gets. cbv zeta. rewrite !extrap_eq, upwind_eq.
  set (fl := (vdot _ _ * _)%R). assert (EF : fl = flux f).
  { unfold fl, fv_flux, throughput, right_state, left_state. replace (fv_label X f =? 0) with false by lia. replace (is_periodic dim (fv_label X f)) with false by (unfold is_periodic, is_x, is_y, is_z; lia).
    replace (fv_label X f =? 10) with false by lia. reflexivity. } rewrite EF.
  rewrite add_at_ok by lia. cbn [bind]. eexists. split; [reflexivity|]. cbn [fst snd]. split; [rewrite !zlen_upd; exact Hs|].
  intros c Hc. rewrite nthZ_add by lia. rewrite leaves_outer by lia. reflexivity.
Qed.

Lemma convective_ok : exists rez, convective dim order X L A vel nc = Ok rez /\ zlen rez = nc /\
  forall c, 0 <= c < nc -> nthZ 0%R rez c = (- rsum (map (leaves X flux c) (all_faces L)))%R.
Proof.
  unfold convective. cbv zeta. set (s0 := (zeros_like 0%R nc, p0, p0) : fvstate).
  assert (H0 : zlen (prj s0) = nc) by (cbn [s0 fst]; apply zlen_zeros_like, zlen_nonneg).
  destruct (foldM_sum (conv_inner dim order X A vel) prj (fun c f => - leaves X flux c f)%R nc (ls_inner L) s0 H0) as (s1 & E1 & L1 & P1); [intros s f; apply inner_ok|]. rewrite E1. cbn [bind].
  destruct (foldM_sum (conv_periodic dim order X A vel) prj (fun c f => - leaves X flux c f)%R nc (ls_periodic L) s1 L1) as (s2 & E2 & L2 & P2); [intros s f; apply periodic_ok|]. rewrite E2. cbn [bind].
  destruct (foldM_sum (conv_halo dim order X A vel) prj (fun c f => - leaves X flux c f)%R nc (ls_halo L) s2 L2) as (s3 & E3 & L3 & P3); [intros s f; apply halo_ok|]. rewrite E3. cbn [bind].
  destruct (foldM_sum (conv_boundary dim order X A vel) prj (fun c f => - leaves X flux c f)%R nc (ls_boundary L) s3 L3) as (s4 & E4 & L4 & P4); [intros s f; apply boundary_ok|]. rewrite E4. cbn [bind].
  eexists. split; [reflexivity|]. split; [exact L4|]. intros c Hc. cbv beta in *. rewrite P4, P3, P2, P1 by exact Hc. cbn [s0 fst]. rewrite nthZ_zeros by exact Hc.
  unfold all_faces. rewrite !map_app, !rsum_app, !rsum_map_opp. ring.
Qed.
End Conv.

(** sum over the cells of what leaves them: interior faces cancel *)
Lemma leaves_total X (x : Z -> R) nc f : 0 <= cell0 X f < nc -> (fv_label X f = 0 -> 0 <= cell1 X f < nc) ->
  rsum (map (fun c => leaves X x c f) (range nc)) = (if fv_label X f =? 0 then 0 else x f)%R.
Proof.
  intros H0 H1. unfold leaves. destruct (fv_label X f =? 0) eqn:E; cbn [andb].
  - rewrite (rsum_map_ext _ (fun c => (if cell0 X f =? c then x f else 0) + - (if cell1 X f =? c then x f else 0))%R) by (intros; ring).
    rewrite rsum_map_add, rsum_map_opp, !rsum_delta by (try apply H1; lia). ring.
  - rewrite (rsum_map_ext _ (fun c => (if cell0 X f =? c then x f else 0))%R) by (intros; ring). apply rsum_delta. exact H0.
Qed.
