(** * Proofs_init: the initialisation loops fill the arrays with functions of the centres. *)
From Coq Require Import Reals Lra.
From Verif Require Import Py PyLemmas Model_part Spec_part Model_conn Spec_conn Model_geom Spec_geom Model_domain Spec_domain Model_parallel Spec_parallel Model_sw Model_run3 Model_init Spec_init Proofs_save.
Open Scope Z_scope.

(** the first i entries are those of the function *)
Definition filled (center : list pt) (f : pt -> R) (i : Z) (a : list R) : Prop := zlen a = zlen center /\ forall j, 0 <= j < i -> nthZ 0%R a j = f (nthZ vzero center j).
Section Fill.
Context (center : list pt).
Lemma filled_0 f a : zlen a = zlen center -> filled center f 0 a.
Proof. intros H. split; [exact H|]. intros j Hj. lia. Qed.
Lemma filled_step f i a v : 0 <= i < zlen center -> filled center f i a -> v = f (nthZ vzero center i) -> exists a', set a i v = Ok a' /\ filled center f (i + 1) a'.
Proof.
  intros Hi (L & H) ->. exists (upd a i (f (nthZ vzero center i))). split; [apply set_upd; lia|]. split; [rewrite zlen_upd; exact L|].
  intros j Hj. destruct (Z.eq_dec j i) as [->|N]; [apply nthZ_upd_eq; lia|]. rewrite nthZ_upd_neq by lia. apply H. lia.
Qed.
Lemma filled_again f i a v : 0 <= i < zlen center -> zlen a = zlen center -> (forall j, 0 <= j < i -> nthZ 0%R a j = f (nthZ vzero center j)) -> v = f (nthZ vzero center i) -> exists a', set a i v = Ok a' /\ filled center f (i + 1) a'.
Proof. intros Hi L H E. apply filled_step; [exact Hi | split; assumption | exact E]. Qed.
Lemma filled_done f a : filled center f (zlen center) a -> a = map f center.
Proof. intros (L & H). apply (nthZ_ext 0%R); [rewrite zlen_map; exact L|]. intros i Hi. rewrite L in Hi. rewrite (nthZ_map f vzero) by exact Hi. apply H. exact Hi. Qed.
End Fill.

Lemma exp_form x y : (- (x / (y * y)))%R = (-1 * x / y ^ 2)%R.
Proof. replace (y ^ 2)%R with (y * y)%R by ring. unfold Rdiv. ring. Qed.
Lemma density_2d_ok p : (5 * exp (-1 * ((px p - 2/10) ^ 2 + (py p - 25/100) ^ 2) / (5/100) ^ 2) + 1)%R = density_2d p.
Proof. unfold density_2d, hill, distance2, square. rewrite Rplus_comm. f_equal. f_equal. f_equal. field. Qed.
Lemma density_3d_ok p : (5 * exp (-1 * ((px p - 2/10) ^ 2 + (py p - 25/100) ^ 2 + (pz p - 45/100) ^ 2) / (5/100) ^ 2) + 1)%R = density_3d p.
Proof. unfold density_3d, hill, distance3, distance2, square. rewrite Rplus_comm. f_equal. f_equal. f_equal. field. Qed.
Lemma electrons_2d_ok p : (10 ^ 16 * exp (-1 * ((px p - 2/10) ^ 2 + (py p - 25/100) ^ 2) / (1/100) ^ 2) + 10 ^ 9)%R = electrons_2d p.
Proof. unfold electrons_2d, hill, distance2, square. rewrite Rplus_comm. f_equal. f_equal. f_equal. field. Qed.
Lemma electrons_3d_ok p : (10 ^ 16 * exp (-1 * ((px p - 2/10) ^ 2 + (py p - 25/100) ^ 2 + (pz p - 25/100) ^ 2) / (1/100) ^ 2) + 10 ^ 12)%R = electrons_3d p.
Proof. unfold electrons_3d, hill, distance3, distance2, square. rewrite Rplus_comm. f_equal. f_equal. f_equal. field. Qed.

Ltac fill F := match goal with Hi : 0 <= ?i < zlen ?c |- context [set ?a ?i ?v] => match goal with H : filled c F i a |- _ =>
  let x := fresh "arr" in let E := fresh "E" in let HF := fresh "HF" in destruct (filled_step c F i a v Hi H) as (x & E & HF); [| rewrite E; cbn [bind]] end end.

Section Loops.
Context (center : list pt).
Definition zero_at : pt -> R := fun _ => 0%R.
Lemma gaussian_2d_ok a Pinit : zlen (in_ne a) = zlen center -> zlen (in_u a) = zlen center -> zlen (in_v a) = zlen center -> zlen (in_w a) = zlen center -> zlen (in_P a) = zlen center ->
  initialisation_gaussian_2d a center Pinit = Ok {| in_ne := map density_2d center; in_u := map zero_at center; in_v := map zero_at center; in_w := map zero_at center; in_P := map (slope_from Pinit (1/2)) center |}.
Proof.
  intros A1 A2 A3 A4 A5. pose proof (zlen_nonneg center) as LC. unfold initialisation_gaussian_2d. cbv zeta.
  destruct (foldM_range_inv (fun i s => filled center density_2d i (in_ne s) /\ filled center zero_at i (in_u s) /\ filled center zero_at i (in_v s) /\ filled center zero_at i (in_w s) /\ filled center (slope_from Pinit (1/2)) i (in_P s))
    (fun a i => do c <- get center i; do ne <- set (in_ne a) i (5 * exp (-1 * ((px c - 2/10) ^ 2 + (py c - 25/100) ^ 2) / (5/100) ^ 2) + 1)%R; do u <- set (in_u a) i 0%R; do v <- set (in_v a) i 0%R; do w <- set (in_w a) i 0%R; do P <- set (in_P a) i (Pinit * (5/10 - px c))%R; ret {| in_ne := ne; in_u := u; in_v := v; in_w := w; in_P := P |}) (zlen center) a LC) as (s & E & F1 & F2 & F3 & F4 & F5).
  - auto 10 using filled_0.
  - intros i s Hi (F1 & F2 & F3 & F4 & F5). rewrite (get_nthZ vzero) by exact Hi. cbn [bind].
    fill density_2d; [apply density_2d_ok|]. fill zero_at; [reflexivity|]. fill zero_at; [reflexivity|]. fill zero_at; [reflexivity|]. fill (slope_from Pinit (1/2)); [unfold slope_from; field|]. eexists. split; [reflexivity|]. cbn [in_ne in_u in_v in_w in_P]. auto 10.
  - rewrite E. destruct s as [s1 s2 s3 s4 s5]. cbn [in_ne in_u in_v in_w in_P] in *. apply filled_done in F1, F2, F3, F4, F5. subst. reflexivity.
Qed.
Lemma gaussian_3d_ok a Pinit : zlen (in_ne a) = zlen center -> zlen (in_u a) = zlen center -> zlen (in_v a) = zlen center -> zlen (in_w a) = zlen center -> zlen (in_P a) = zlen center ->
  initialisation_gaussian_3d a center Pinit = Ok {| in_ne := map density_3d center; in_u := map zero_at center; in_v := map zero_at center; in_w := map zero_at center; in_P := map (slope_from Pinit (1/2)) center |}.
Proof.
  intros A1 A2 A3 A4 A5. pose proof (zlen_nonneg center) as LC. unfold initialisation_gaussian_3d. cbv zeta.
  destruct (foldM_range_inv (fun i s => filled center density_3d i (in_ne s) /\ filled center zero_at i (in_u s) /\ filled center zero_at i (in_v s) /\ filled center zero_at i (in_w s) /\ filled center (slope_from Pinit (1/2)) i (in_P s))
    (fun a i => do c <- get center i; do ne <- set (in_ne a) i (5 * exp (-1 * ((px c - 2/10) ^ 2 + (py c - 25/100) ^ 2 + (pz c - 45/100) ^ 2) / (5/100) ^ 2) + 1)%R; do u <- set (in_u a) i 0%R; do v <- set (in_v a) i 0%R; do w <- set (in_w a) i 0%R; do P <- set (in_P a) i (Pinit * (5/10 - px c))%R; ret {| in_ne := ne; in_u := u; in_v := v; in_w := w; in_P := P |}) (zlen center) a LC) as (s & E & F1 & F2 & F3 & F4 & F5).
  - auto 10 using filled_0.
  - intros i s Hi (F1 & F2 & F3 & F4 & F5). rewrite (get_nthZ vzero) by exact Hi. cbn [bind].
    fill density_3d; [apply density_3d_ok|]. fill zero_at; [reflexivity|]. fill zero_at; [reflexivity|]. fill zero_at; [reflexivity|]. fill (slope_from Pinit (1/2)); [unfold slope_from; field|]. eexists. split; [reflexivity|]. cbn [in_ne in_u in_v in_w in_P]. auto 10.
  - rewrite E. destruct s as [s1 s2 s3 s4 s5]. cbn [in_ne in_u in_v in_w in_P] in *. apply filled_done in F1, F2, F3, F4, F5. subst. reflexivity.
Qed.
Lemma SW_ok a : zlen (wa_h a) = zlen center -> zlen (wa_hu a) = zlen center -> zlen (wa_hv a) = zlen center -> zlen (wa_hc a) = zlen center -> zlen (wa_Z a) = zlen center ->
  initialisation_SW a center = Ok {| wa_h := map (fun p => q_h (dam_break p)) center; wa_hu := map zero_at center; wa_hv := map zero_at center; wa_hc := map zero_at center; wa_Z := map zero_at center |}.
Proof.
  intros A1 A2 A3 A4 A5. pose proof (zlen_nonneg center) as LC. unfold initialisation_SW. cbv zeta.
  destruct (foldM_range_inv (fun i s => filled center (fun p => q_h (dam_break p)) i (wa_h s) /\ filled center zero_at i (wa_hu s) /\ filled center zero_at i (wa_hv s) /\ filled center zero_at i (wa_hc s) /\ filled center zero_at i (wa_Z s))
    (fun a i => do c <- get center i; do h <- set (wa_h a) i 2%R; do Zb <- set (wa_Z a) i 0%R; do h <- (if Rlt_dec (px c) (5/10) then set h i 5%R else ret h); do hu <- set (wa_hu a) i 0%R; do hv <- set (wa_hv a) i 0%R; do hc <- set (wa_hc a) i 0%R; ret {| wa_h := h; wa_hu := hu; wa_hv := hv; wa_hc := hc; wa_Z := Zb |}) (zlen center) a LC) as (s & E & F1 & F2 & F3 & F4 & F5).
  - auto 10 using filled_0.
  - intros i s Hi (F1 & F2 & F3 & F4 & F5). rewrite (get_nthZ vzero) by exact Hi. cbn [bind]. destruct F1 as (L1 & F1). rewrite set_upd by lia. cbn [bind]. fill zero_at; [reflexivity|].
    assert (S2 : exists h', (if Rlt_dec (px (nthZ vzero center i)) (5 / 10) then set (upd (wa_h s) i 2%R) i 5%R else ret (upd (wa_h s) i 2%R)) = Ok h' /\ filled center (fun p => q_h (dam_break p)) (i + 1) h').
    { assert (LU : zlen (upd (wa_h s) i 2%R) = zlen center) by (rewrite zlen_upd; exact L1).
      assert (BU : forall j, 0 <= j < i -> nthZ 0%R (upd (wa_h s) i 2%R) j = q_h (dam_break (nthZ vzero center j))) by (intros j Hj; rewrite nthZ_upd_neq by lia; apply F1; exact Hj).
      destruct (Rlt_dec _ (5/10)) as [HL|HL].
      - apply (filled_again center (fun p => q_h (dam_break p))); [exact Hi | exact LU | exact BU|]. unfold dam_break. cbn [q_h]. destruct (Rlt_dec _ (1/2)); [reflexivity | exfalso; lra].
      - eexists. split; [reflexivity|]. split; [exact LU|]. intros j Hj. destruct (Z.eq_dec j i) as [->|N]; [|apply BU; lia]. rewrite nthZ_upd_eq by lia. unfold dam_break. cbn [q_h]. destruct (Rlt_dec _ (1/2)); [exfalso; lra | reflexivity]. }
    destruct S2 as (h' & E2 & F1'). rewrite E2. cbn [bind]. fill zero_at; [reflexivity|]. fill zero_at; [reflexivity|]. fill zero_at; [reflexivity|]. eexists. split; [reflexivity|]. cbn [wa_h wa_hu wa_hv wa_hc wa_Z]. auto 10.
  - rewrite E. destruct s as [s1 s2 s3 s4 s5]. cbn [wa_h wa_hu wa_hv wa_hc wa_Z] in *. apply filled_done in F1, F2, F3, F4, F5. subst. reflexivity.
Qed.
Lemma streamer_ok a Pinit : zlen (ga_ne a) = zlen center -> zlen (ga_ni a) = zlen center -> zlen (ga_u a) = zlen center -> zlen (ga_v a) = zlen center -> zlen (ga_Ex a) = zlen center -> zlen (ga_Ey a) = zlen center -> zlen (ga_P a) = zlen center ->
  initialisation_streamer a center Pinit = Ok {| ga_ne := map electrons_2d center; ga_ni := map electrons_2d center; ga_u := map zero_at center; ga_v := map zero_at center; ga_w := ga_w a;
    ga_Ex := map zero_at center; ga_Ey := map zero_at center; ga_Ez := ga_Ez a; ga_P := map (slope_from Pinit 1) center |}.
Proof.
  intros A1 A2 A3 A4 A5 A6 A7. pose proof (zlen_nonneg center) as LC. unfold initialisation_streamer. cbv zeta.
  destruct (foldM_range_inv (fun i s => filled center electrons_2d i (ga_ne s) /\ filled center electrons_2d i (ga_ni s) /\ filled center zero_at i (ga_u s) /\ filled center zero_at i (ga_v s) /\ filled center (slope_from Pinit 1) i (ga_P s) /\ filled center zero_at i (ga_Ex s) /\ filled center zero_at i (ga_Ey s) /\ ga_w s = ga_w a /\ ga_Ez s = ga_Ez a)
    (fun a i => do c <- get center i;
      do ne <- set (ga_ne a) i (10 ^ 16 * exp (-1 * ((px c - 2/10) ^ 2 + (py c - 25/100) ^ 2) / (1/100) ^ 2) + 10 ^ 9)%R;
      do ni <- set (ga_ni a) i (10 ^ 16 * exp (-1 * ((px c - 2/10) ^ 2 + (py c - 25/100) ^ 2) / (1/100) ^ 2) + 10 ^ 9)%R;
      do u <- set (ga_u a) i 0%R; do v <- set (ga_v a) i 0%R; do P <- set (ga_P a) i (Pinit * (1 - px c))%R; do Ex <- set (ga_Ex a) i 0%R; do Ey <- set (ga_Ey a) i 0%R;
      ret {| ga_ne := ne; ga_ni := ni; ga_u := u; ga_v := v; ga_w := ga_w a; ga_Ex := Ex; ga_Ey := Ey; ga_Ez := ga_Ez a; ga_P := P |}) (zlen center) a LC) as (s & E & F1 & F2 & F3 & F4 & F5 & F6 & F7 & W1 & W2).
  - auto 12 using filled_0.
  - intros i s Hi (F1 & F2 & F3 & F4 & F5 & F6 & F7 & W1 & W2). rewrite (get_nthZ vzero) by exact Hi. cbn [bind].
    fill electrons_2d; [apply electrons_2d_ok|]. fill electrons_2d; [apply electrons_2d_ok|]. fill zero_at; [reflexivity|]. fill zero_at; [reflexivity|]. fill (slope_from Pinit 1); [reflexivity|]. fill zero_at; [reflexivity|]. fill zero_at; [reflexivity|].
    eexists. split; [reflexivity|]. cbn [ga_ne ga_ni ga_u ga_v ga_w ga_Ex ga_Ey ga_Ez ga_P]. auto 12.
  - rewrite E. destruct s as [s1 s2 s3 s4 s5 s6 s7 s8 s9]. cbn [ga_ne ga_ni ga_u ga_v ga_w ga_Ex ga_Ey ga_Ez ga_P] in *. apply filled_done in F1, F2, F3, F4, F5, F6, F7. subst. reflexivity.
Qed.
Lemma streamer_3d_ok a Pinit : zlen (ga_ne a) = zlen center -> zlen (ga_ni a) = zlen center -> zlen (ga_u a) = zlen center -> zlen (ga_v a) = zlen center -> zlen (ga_w a) = zlen center -> zlen (ga_Ex a) = zlen center -> zlen (ga_Ey a) = zlen center -> zlen (ga_Ez a) = zlen center -> zlen (ga_P a) = zlen center ->
  initialisation_streamer_3d a center Pinit = Ok {| ga_ne := map electrons_3d center; ga_ni := map electrons_3d center; ga_u := map zero_at center; ga_v := map zero_at center; ga_w := map zero_at center;
    ga_Ex := map zero_at center; ga_Ey := map zero_at center; ga_Ez := map zero_at center; ga_P := map (slope_from Pinit (1/2)) center |}.
Proof.
  intros A1 A2 A3 A4 A4' A5 A6 A6' A7. pose proof (zlen_nonneg center) as LC. unfold initialisation_streamer_3d. cbv zeta.
  destruct (foldM_range_inv (fun i s => filled center electrons_3d i (ga_ne s) /\ filled center electrons_3d i (ga_ni s) /\ filled center zero_at i (ga_u s) /\ filled center zero_at i (ga_v s) /\ filled center zero_at i (ga_w s) /\ filled center (slope_from Pinit (1/2)) i (ga_P s) /\ filled center zero_at i (ga_Ex s) /\ filled center zero_at i (ga_Ey s) /\ filled center zero_at i (ga_Ez s))
    (fun a i => do c <- get center i;
      do ne <- set (ga_ne a) i (10 ^ 16 * exp (-1 * ((px c - 2/10) ^ 2 + (py c - 25/100) ^ 2 + (pz c - 25/100) ^ 2) / (1/100) ^ 2) + 10 ^ 12)%R;
      do ni <- set (ga_ni a) i (10 ^ 16 * exp (-1 * ((px c - 2/10) ^ 2 + (py c - 25/100) ^ 2 + (pz c - 25/100) ^ 2) / (1/100) ^ 2) + 10 ^ 12)%R;
      do u <- set (ga_u a) i 0%R; do v <- set (ga_v a) i 0%R; do w <- set (ga_w a) i 0%R; do P <- set (ga_P a) i (Pinit * (5/10 - px c))%R; do Ex <- set (ga_Ex a) i 0%R; do Ey <- set (ga_Ey a) i 0%R; do Ez <- set (ga_Ez a) i 0%R;
      ret {| ga_ne := ne; ga_ni := ni; ga_u := u; ga_v := v; ga_w := w; ga_Ex := Ex; ga_Ey := Ey; ga_Ez := Ez; ga_P := P |}) (zlen center) a LC) as (s & E & F1 & F2 & F3 & F4 & F4' & F5 & F6 & F7 & F8).
  - auto 14 using filled_0.
  - intros i s Hi (F1 & F2 & F3 & F4 & F4' & F5 & F6 & F7 & F8). rewrite (get_nthZ vzero) by exact Hi. cbn [bind].
    fill electrons_3d; [apply electrons_3d_ok|]. fill electrons_3d; [apply electrons_3d_ok|]. fill zero_at; [reflexivity|]. fill zero_at; [reflexivity|]. fill zero_at; [reflexivity|]. fill (slope_from Pinit (1/2)); [unfold slope_from; field|]. fill zero_at; [reflexivity|]. fill zero_at; [reflexivity|]. fill zero_at; [reflexivity|].
    eexists. split; [reflexivity|]. cbn [ga_ne ga_ni ga_u ga_v ga_w ga_Ex ga_Ey ga_Ez ga_P]. auto 14.
  - rewrite E. destruct s as [s1 s2 s3 s4 s5 s6 s7 s8 s9]. cbn [ga_ne ga_ni ga_u ga_v ga_w ga_Ex ga_Ey ga_Ez ga_P] in *. apply filled_done in F1, F2, F3, F4, F4', F5, F6, F7, F8. subst. reflexivity.
Qed.
End Loops.

(** *** Values *)
Lemma hill_bounds a s b d : (0 < a)%R -> (0 < s)%R -> (0 <= d)%R -> (b < hill a s b d <= b + a)%R.
Proof.
  intros Ha Hs Hd. unfold hill. pose proof (exp_pos (- (d / square s))). assert (Q : (0 < square s)%R) by (unfold square; nra). assert (D0 : (0 <= d / square s)%R) by (apply Rmult_le_pos; [exact Hd | left; apply Rinv_0_lt_compat; exact Q]).
  assert (exp (- (d / square s)) <= 1)%R. { rewrite <- exp_0. destruct (Req_dec (d / square s) 0) as [->|N]; [right; f_equal; ring|]. left. apply exp_increasing. lra. } nra.
Qed.
Lemma distance2_nonneg x y p : (0 <= distance2 x y p)%R.
Proof. unfold distance2, square. pose proof (Rle_0_sqr (px p - x)). pose proof (Rle_0_sqr (py p - y)). unfold Rsqr in *. lra. Qed.
Lemma distance3_nonneg x y z p : (0 <= distance3 x y z p)%R.
Proof. unfold distance3. pose proof (distance2_nonneg x y p). pose proof (Rle_0_sqr (pz p - z)). unfold square, Rsqr in *. lra. Qed.

(** *** On the ranks *)
Section Ranks.
Context (dim SIZE : Z) (cells : list (list Z)) (nodes : list pt) (labels npart0 epart : list Z) (st : setting).
Context (RP : represents dim SIZE cells nodes labels epart (se_domains st)).
Notation DD r := (domain_of (se_domains st) r).
Lemma centre_values {V} (d : V) (f : pt -> V) ws : zlen ws = SIZE -> (forall r, 0 <= r < SIZE -> nthZ [] ws r = map f (dm_center (DD r))) -> values_of d SIZE (se_domains st) (at_centres dim cells nodes f) ws.
Proof.
  intros L H. split; [exact L|]. intros r Hr. rewrite (H r Hr). pose proof (pas dim SIZE cells nodes labels epart st RP r Hr) as PA. destruct (pa_sizes _ _ _ _ _ _ _ PA) as (_ & SC & _). rewrite zlen_map. split; [exact SC|].
  intros c Hc. unfold iscell_of in Hc. rewrite (nthZ_map f vzero) by lia. unfold at_centres. f_equal. apply (pa_cell _ _ _ _ _ _ _ PA c Hc).
Qed.
Lemma initialise_ok {A} (f : A -> list pt -> res A) (g : A -> list pt -> A) (d : A) arrays : zlen arrays = SIZE -> (forall r, 0 <= r < SIZE -> f (nthZ d arrays r) (dm_center (DD r)) = Ok (g (nthZ d arrays r) (dm_center (DD r)))) ->
  exists out, initialise f SIZE st arrays = Ok out /\ zlen out = SIZE /\ forall r, 0 <= r < SIZE -> nthZ d out r = g (nthZ d arrays r) (dm_center (DD r)).
Proof.
  intros L H. exists (map (fun r => g (nthZ d arrays r) (dm_center (DD r))) (range SIZE)). pose proof (zlen_nonneg arrays) as LN. split; [|split].
  - unfold initialise. apply mapM_ok. intros r Hr. apply in_range in Hr. rewrite (doms dim SIZE cells nodes labels epart st RP r Hr). cbn [bind]. rewrite (get_nthZ d) by lia. cbn [bind]. apply H. exact Hr.
  - rewrite zlen_map, zlen_range; lia.
  - intros r Hr. rewrite (nthZ_map _ 0) by (rewrite zlen_range; lia). rewrite nthZ_range by lia. reflexivity.
Qed.
End Ranks.
