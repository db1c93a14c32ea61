(** * Proofs_interp5: the Barth limiter (C27) and the face-to-cell mean (C28). *)
From Verif Require Import Py PyLemmas Model_part Model_conn Spec_conn Model_geom Spec_geom Model_interp Spec_interp Proofs_conn1 Proofs_geom1 Proofs_interp1 Proofs_interp2 Proofs_interp3.
From Coq Require Import Reals Lra.
Open Scope Z_scope.

Section Barth.
Context (dim : Z) (B : limdata) (W : values) (grads : list pt).
Hypothesis WF : wf_limdata dim B W.
Hypothesis HG : zlen grads = zlen (w_c W).

Definition faces (i : Z) : list Z := nthZ [] (ld_faceid B) i.
Definition wi (i : Z) : R := nthZ 0%R (w_c W) i.
(** the values the limiter looks at for cell i *)
Definition seen (i : Z) (v : R) : Prop := v = wi i \/ exists f, In f (faces i) /\ v = across B W i f.

Lemma faces_len i : 0 <= i < zlen (w_c W) -> zlen (faces i) = dim + 1.
Proof. apply (wl_row _ _ _ WF). Qed.

Lemma lim_two i f : 0 <= i < zlen (w_c W) -> In f (faces i) ->
  exists w0 w1, (do c0 <- get2 (ld_cellid B) f 0; get (w_c W) c0) = Ok w0 /\ lim_other dim B W f = Ok w1 /\
  (w0 = wi i /\ w1 = across B W i f \/ w0 = across B W i f /\ w1 = wi i).
Proof.
  intros Hi Hf. destruct (wl_len _ _ _ WF) as (L1 & L2 & L3 & L4 & L5 & L6). destruct (wl_face _ _ _ WF i f Hi Hf) as (F1 & F2 & F3 & F4). cbv zeta in F4.
  set (l := nthZ 0 (ld_name B) f) in *. set (row := nthZ [] (ld_cellid B) f) in *.
  exists (nthZ 0%R (w_c W) (nthZ 0 row 0)). unfold get2. rewrite (get_nthZ []) by lia. cbn [bind]. fold row. rewrite (get_nthZ 0 row 0) by lia. cbn [bind]. rewrite (get_nthZ 0%R) by lia.
  unfold lim_other, get2. rewrite (get_nthZ 0 (ld_name B)) by lia. cbn [bind]. fold l.
  destruct F4 as [(Fl & Fc & Fi) | [(Fl & Fi) | (Fl & Fi & Fh)]].
  - exists (nthZ 0%R (w_c W) (nthZ 0 row 1)). replace ((l =? 0) || (10 <? l)) with true by lia. rewrite (get_nthZ []) by lia. cbn [bind]. fold row. rewrite (get_nthZ 0 row 1) by lia. cbn [bind]. rewrite (get_nthZ 0%R) by lia.
    split; [reflexivity|]. split; [reflexivity|]. unfold across. fold l row. replace ((l =? 0) || (10 <? l)) with true by lia. unfold wi.
    destruct (nthZ 0 row 0 =? i) eqn:E; [left; split; [f_equal; lia | reflexivity] | right; split; [reflexivity | f_equal; lia]].
  - exists (nthZ 0%R (w_ghost W) f). replace ((l =? 0) || (10 <? l)) with false by (destruct (wl_dim _ _ _ WF); lia).
    replace (if dim =? 2 then (l =? 1) || (l =? 2) || (l =? 3) || (l =? 4) else negb (l =? 10)) with true by (destruct (wl_dim _ _ _ WF) as [-> | ->]; cbn [Z.eqb Pos.eqb]; lia).
    rewrite (get_nthZ 0%R) by lia. split; [reflexivity|]. split; [reflexivity|]. left. unfold across. fold l row. replace ((l =? 0) || (10 <? l)) with false by (destruct (wl_dim _ _ _ WF); lia).
    replace (l =? 10) with false by (destruct (wl_dim _ _ _ WF); lia). unfold wi. rewrite Fi. split; reflexivity.
  - exists (nthZ 0%R (w_halo W) (nthZ 0 (ld_halofid B) f)). rewrite Fl. cbn [Z.eqb Pos.eqb Z.ltb Z.compare Pos.compare Pos.compare_cont orb negb].
    replace (if dim =? 2 then false else false) with false by (destruct (dim =? 2); reflexivity). rewrite (get_nthZ 0) by lia. cbn [bind]. rewrite (get_nthZ 0%R) by lia.
    split; [reflexivity|]. split; [reflexivity|]. left. unfold across. fold l row. rewrite Fl. unfold wi. rewrite Fi. split; reflexivity.
Qed.

Definition bracket (i : Z) (fs : list Z) (mm : R * R) : Prop :=
  (seen i (fst mm)) /\ (seen i (snd mm)) /\ (fst mm <= wi i <= snd mm)%R /\ forall f, In f fs -> (fst mm <= across B W i f <= snd mm)%R.

Lemma in_firstn_succ {A} (d : A) l j x : 0 <= j < zlen l -> In x (firstn (Z.to_nat (j + 1)) l) -> In x (firstn (Z.to_nat j) l) \/ x = nthZ d l j.
Proof.
  intros Hj H. rewrite <- (firstn_nthZ d) in H by lia. rewrite <- (firstn_nthZ d) by lia. apply in_map_iff in H. destruct H as (k & <- & Hk). apply in_range in Hk.
  destruct (Z.eq_dec k j) as [-> |]; [right; reflexivity | left; apply in_map, in_range; lia].
Qed.

Lemma range_ok i : 0 <= i < zlen (w_c W) -> exists mm, foldM (lim_range dim B W i) (range (dim + 1)) (wi i, wi i) = Ok mm /\ bracket i (faces i) mm.
Proof.
  intros Hi. pose proof (faces_len i Hi) as HL. destruct (wl_len _ _ _ WF) as (L1 & L2 & L3 & L4 & L5 & L6). pose proof (wl_dim _ _ _ WF) as Hd.
  destruct (foldM_range_inv (fun j mm => bracket i (firstn (Z.to_nat j) (faces i)) mm) (lim_range dim B W i) (dim + 1) (wi i, wi i)) as (mm & E & P).
  - lia.
  - cbn. unfold bracket, seen. cbn. repeat split; try (left; reflexivity); try lra; contradiction.
  - intros j mm Hj (P1 & P2 & P3 & P4). set (f := nthZ 0 (faces i) j). assert (Hf : In f (faces i)) by (apply nthZ_In; lia).
    destruct (lim_two i f Hi Hf) as (w0 & w1 & E0 & E1 & C). unfold lim_range, get2. rewrite (get_nthZ []) by lia. cbn [bind]. fold (faces i). rewrite (get_nthZ 0) by lia. cbn [bind]. fold f.
    unfold get2 in E0. destruct (do l <- get (ld_cellid B) f; get l 0) as [c0|] eqn:Ec; [|discriminate]. cbn [bind] in E0 |- *. rewrite E0. cbn [bind]. rewrite E1. cbn [bind].
    eexists. split; [reflexivity|]. assert (Sf : seen i (across B W i f)) by (right; exists f; auto). assert (Si : seen i (wi i)) by (left; reflexivity).
    assert (S0 : seen i w0) by (destruct C as [[-> ->] | [-> ->]]; assumption). assert (S1 : seen i w1) by (destruct C as [[-> ->] | [-> ->]]; assumption).
    assert (Emin : forall a b, seen i a -> seen i b -> seen i (Rmin a b)) by (intros a b Ha Hb; unfold Rmin; destruct Rle_dec; assumption).
    assert (Emax : forall a b, seen i a -> seen i b -> seen i (Rmax a b)) by (intros a b Ha Hb; unfold Rmax; destruct Rle_dec; assumption).
    unfold bracket. cbn [fst snd]. split; [auto|]. split; [auto|].
    set (m := Rmin (Rmin (fst mm) w0) w1). set (M := Rmax (Rmax (snd mm) w0) w1).
    assert (m <= fst mm /\ m <= w0 /\ m <= w1)%R. { unfold m. pose proof (Rmin_l (Rmin (fst mm) w0) w1). pose proof (Rmin_r (Rmin (fst mm) w0) w1). pose proof (Rmin_l (fst mm) w0). pose proof (Rmin_r (fst mm) w0). lra. }
    assert (snd mm <= M /\ w0 <= M /\ w1 <= M)%R. { unfold M. pose proof (Rmax_l (Rmax (snd mm) w0) w1). pose proof (Rmax_r (Rmax (snd mm) w0) w1). pose proof (Rmax_l (snd mm) w0). pose proof (Rmax_r (snd mm) w0). lra. }
    split; [lra|]. intros f' Hf'. destruct (in_firstn_succ 0 (faces i) j f') as [D | ->]; [lia | exact Hf' | pose proof (P4 f' D); lra |]. fold f. destruct C as [[-> ->] | [-> ->]]; lra.
  - exists mm. split; [exact E|]. rewrite firstn_all2 in P; [exact P|]. unfold zlen in HL. lia.
Qed.

Lemma lim_eps_eq : lim_eps dim = threshold dim.
Proof. unfold lim_eps, threshold. destruct (dim =? 2); field. Qed.

Lemma threshold_pos : (0 < threshold dim)%R.
Proof. unfold threshold. destruct (dim =? 2); apply Rinv_0_lt_compat, pow_lt; lra. Qed.

Notation inc i f := (increment dim B grads i f).
(** what the limiter of a cell satisfies once the faces [fs] have been treated *)
Definition limited (i : Z) (mm : R * R) (fs : list Z) (psi : R) : Prop :=
  (0 <= psi <= 1)%R /\
  (forall f, In f fs -> (threshold dim <= Rabs (inc i f))%R -> (fst mm <= wi i + psi * inc i f <= snd mm)%R) /\
  (psi = 1%R \/ exists f, In f fs /\ (threshold dim <= Rabs (inc i f))%R /\
     ((0 < inc i f)%R /\ (wi i + psi * inc i f)%R = snd mm \/ (inc i f < 0)%R /\ (wi i + psi * inc i f)%R = fst mm)).

Lemma barth_cell_ok i : 0 <= i < zlen (w_c W) -> exists mm psi, barth_cell dim B W grads i = Ok psi /\ bracket i (faces i) mm /\ limited i mm (faces i) psi.
Proof.
  intros Hi. pose proof (faces_len i Hi) as HL. destruct (wl_len _ _ _ WF) as (L1 & L2 & L3 & L4 & L5 & L6). pose proof (wl_dim _ _ _ WF) as Hd.
  destruct (range_ok i Hi) as (mm & E & Bk). destruct Bk as (B1 & B2 & B3 & B4). exists mm. unfold barth_cell. rewrite (get_nthZ 0%R) by lia. cbn [bind]. fold (wi i). rewrite E. cbn [bind].
  destruct (foldM_range_inv (fun j psi => limited i mm (firstn (Z.to_nat j) (faces i)) psi) (lim_face dim B W grads i mm) (dim + 1) 1%R) as (psi & E' & P).
  - lia.
  - cbn. split; [lra|]. split; [contradiction | left; reflexivity].
  - intros j psi Hj (P1 & P2 & P3). set (f := nthZ 0 (faces i) j). assert (Hf : In f (faces i)) by (apply nthZ_In; lia).
    destruct (wl_face _ _ _ WF i f Hi Hf) as (F1 & _). unfold lim_face, get2. rewrite (get_nthZ []) by lia. cbn [bind]. fold (faces i). rewrite (get_nthZ 0) by lia. cbn [bind]. fold f.
    rewrite (get_nthZ vzero (ld_centerf B)) by lia. cbn [bind]. rewrite (get_nthZ vzero (ld_centerc B)) by lia. cbn [bind]. rewrite (get_nthZ vzero grads) by lia. cbn [bind]. rewrite (get_nthZ 0%R (w_c W)) by lia. cbn [bind]. fold (wi i).
    match goal with |- context [Rabs ?x] => replace x with (inc i f) end; [|unfold increment, disp; cbn [px py pz]; destruct (dim =? 2); ring].
    set (d := inc i f). rewrite lim_eps_eq. eexists. split; [reflexivity|]. pose proof threshold_pos as TP.
    set (p := if Rlt_dec (Rabs d) (threshold dim) then 1%R else if Rlt_dec 0 d then Rmin 1 ((snd mm - wi i) / d) else Rmin 1 ((fst mm - wi i) / d)).
    assert (Hp : (0 <= p <= 1)%R /\ ((threshold dim <= Rabs d)%R -> (fst mm <= wi i + p * d <= snd mm)%R) /\
        (p = 1%R \/ (threshold dim <= Rabs d)%R /\ ((0 < d)%R /\ (wi i + p * d)%R = snd mm \/ (d < 0)%R /\ (wi i + p * d)%R = fst mm))).
    { unfold p. destruct (Rlt_dec (Rabs d) (threshold dim)) as [D|D]; [split; [lra | split; [intros; lra | left; reflexivity]]|]. apply Rnot_lt_le in D.
      destruct (Rlt_dec 0 d) as [D0|D0].
      - assert (Hd1 : ((snd mm - wi i) / d * d = snd mm - wi i)%R) by (field; lra). assert (H0 : (0 <= (snd mm - wi i) / d)%R) by (apply Rmult_le_pos; [lra | left; apply Rinv_0_lt_compat; exact D0]).
        unfold Rmin. destruct Rle_dec as [Q|Q]; [|apply Rnot_le_lt in Q].
        + split; [lra|]. split; [intros _; split; [lra|]; pose proof (Rmult_le_compat_r d _ _ (Rlt_le _ _ D0) Q); lra | left; reflexivity].
        + split; [lra|]. split; [intros _; lra | right; split; [exact D | left; split; [exact D0 | lra]]].
      - assert (Dn : (d < 0)%R). { destruct (Rle_lt_or_eq_dec d 0 ltac:(lra)) as [|Ez]; [assumption|]. exfalso. rewrite Ez, Rabs_R0 in D. lra. }
        assert (Hd1 : ((fst mm - wi i) / d * d = fst mm - wi i)%R) by (field; lra).
        assert (H0 : (0 <= (fst mm - wi i) / d)%R). { replace ((fst mm - wi i) / d)%R with ((wi i - fst mm) * / (- d))%R by (field; lra). apply Rmult_le_pos; [lra | left; apply Rinv_0_lt_compat; lra]. }
        unfold Rmin. destruct Rle_dec as [Q|Q]; [|apply Rnot_le_lt in Q].
        + split; [lra|]. split; [intros _; split; [|lra]; pose proof (Rmult_le_compat_r (- d) _ _ ltac:(lra) Q); lra | left; reflexivity].
        + split; [lra|]. split; [intros _; lra | right; split; [exact D | right; split; [exact Dn | lra]]]. }
    clearbody p. destruct Hp as (Q1 & Q2 & Q3). pose proof (Rmin_l psi p) as M1. pose proof (Rmin_r psi p) as M2. assert (M0 : (0 <= Rmin psi p)%R) by (apply Rmin_glb; lra).
    assert (Mon : forall a q x, (0 <= a <= q)%R -> (fst mm <= wi i + q * x <= snd mm)%R -> (fst mm <= wi i + a * x <= snd mm)%R).
    { intros a q x Ha Hq. destruct (Rle_dec 0 x) as [Hx|Hx].
      - pose proof (Rmult_le_compat_r x a q Hx ltac:(lra)). pose proof (Rmult_le_pos a x ltac:(lra) Hx). lra.
      - apply Rnot_le_lt in Hx. pose proof (Rmult_le_compat_r (- x) a q ltac:(lra) ltac:(lra)). pose proof (Rmult_le_pos a (- x) ltac:(lra) ltac:(lra)). lra. }
    split; [lra|]. split.
    + intros f' Hf' Ht. destruct (in_firstn_succ 0 (faces i) j f') as [D | ->]; [lia | exact Hf' | |].
      * apply (Mon _ psi); [lra | apply P2; assumption].
      * fold f in Ht |- *. apply (Mon _ p); [lra | apply Q2; exact Ht].
    + assert (Hin : forall f', In f' (firstn (Z.to_nat j) (faces i)) -> In f' (firstn (Z.to_nat (j + 1)) (faces i))).
      { intros f' Hf'. rewrite <- (firstn_nthZ 0) in Hf' by lia. rewrite <- (firstn_nthZ 0) by lia. apply in_map_iff in Hf'. destruct Hf' as (k & <- & Hk). apply in_range in Hk. apply in_map, in_range. lia. }
      unfold Rmin. destruct (Rle_dec psi p) as [Q|Q].
      * destruct P3 as [-> | (f' & Hf' & H')]; [left; reflexivity | right; exists f'; auto].
      * destruct Q3 as [-> | Q3]; [left; reflexivity | right; exists f; split; [|exact Q3]]. rewrite <- (firstn_nthZ 0) by lia. apply in_map_iff. exists j. split; [reflexivity | apply in_range; lia].
  - exists psi. split; [exact E'|]. split; [exact (conj B1 (conj B2 (conj B3 B4)))|]. rewrite firstn_all2 in P; [exact P|]. unfold zlen in HL. lia.
Qed.
End Barth.

(** ** facetocell *)
Lemma fold_sum_shift l a : fold_left Rplus l a = (a + fold_right Rplus 0 l)%R.
Proof. revert a. induction l as [|x l IH]; intros a; cbn; [lra | rewrite IH; lra]. Qed.
Lemma facetocell_ok u_face u_c faceidc dim : 0 <= dim -> zlen faceidc = zlen u_c ->
  (forall i, 0 <= i < zlen u_c -> dim + 1 <= zlen (nthZ [] faceidc i) /\ forall f, In f (firstn (Z.to_nat (dim + 1)) (nthZ [] faceidc i)) -> 0 <= f < zlen u_face) ->
  facetocell u_face u_c faceidc dim = Ok (map (fun i => (rsum (map (nthZ 0%R u_face) (firstn (Z.to_nat (dim + 1)) (nthZ [] faceidc i))) / IZR (dim + 1))%R) (range (zlen u_c))).
Proof.
  intros Hd HL HR. unfold facetocell.
  rewrite (for_each_ok 0%R (zlen u_c) _ (fun i => rsum (map (nthZ 0%R u_face) (firstn (Z.to_nat (dim + 1)) (nthZ [] faceidc i)))) u_c eq_refl).
  - cbn [bind]. rewrite map_map. reflexivity.
  - intros i Hi. destruct (HR i Hi) as (H1 & H2).
    rewrite (foldM_nodes faceidc i (dim + 1) (fun f s => do v <- get u_face f; ret (s + v)%R) 0%R) by lia.
    rewrite (foldM_pure (fun s f => (s + nthZ 0%R u_face f)%R)).
    + f_equal. rewrite <- (fold_left_map Rplus). rewrite fold_sum_shift. unfold rsum. apply Rplus_0_l.
    + intros s f Hf. rewrite (get_nthZ 0%R) by (apply H2; exact Hf). reflexivity.
Qed.
Lemma rsum_bounds l lo hi : (forall x, In x l -> (lo <= x <= hi)%R) -> (IZR (zlen l) * lo <= rsum l <= IZR (zlen l) * hi)%R.
Proof.
  induction l as [|x l IH]; intros H; [cbn; lra|]. rewrite zlen_cons, plus_IZR. cbn [rsum fold_right]. fold (rsum l).
  pose proof (H x (or_introl eq_refl)). specialize (IH (fun y Hy => H y (or_intror Hy))). lra.
Qed.
