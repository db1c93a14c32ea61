(** * Proofs_streamer2: the right-hand side over ranks and calls (C49), the time step (C61). *)
From Coq Require Import String Reals Rpower Lra ZifyBool Sorting.Sorted.
From Verif Require Import Py PyLemmas Model_part Spec_part Proofs_part4 Model_conn Spec_conn Model_geom Spec_geom Model_interp Spec_interp Model_fvm Spec_fvm Proofs_conn1 Proofs_interp1 Proofs_interp2 Proofs_fvm1 Proofs_fvm2 Model_streamer Spec_streamer Proofs_streamer.
Open Scope Z_scope.

Lemma rhs_loc_ok ne ni ltg rhs : zlen ni = zlen ne -> zlen ne <= zlen rhs -> exists r, update_rhs_loc ne ni ltg rhs = Ok r /\ zlen r = zlen rhs /\
  (forall i, 0 <= i < zlen ne -> nthZ 0%R r i = poisson_rhs (nthZ 0%R ne i) (nthZ 0%R ni i)) /\ (forall i, zlen ne <= i -> nthZ 0%R r i = nthZ 0%R rhs i).
Proof.
  intros H1 H2. unfold update_rhs_loc.
  destruct (foldM_range_inv (fun n r => zlen r = zlen rhs /\ (forall i, 0 <= i < n -> nthZ 0%R r i = poisson_rhs (nthZ 0%R ne i) (nthZ 0%R ni i)) /\ (forall i, n <= i -> nthZ 0%R r i = nthZ 0%R rhs i))
    (fun rhs i => do a <- get ne i; do b <- get ni i; set rhs i (charge a b)) (zlen ne) rhs) as (r & E & L & P1 & P2).
  - apply zlen_nonneg.
  - split; [reflexivity|]. split; [intros; lia | reflexivity].
  - intros i r Hi (L & P1 & P2). rewrite !(get_nthZ 0%R) by lia. cbn [bind]. rewrite set_upd by lia. eexists. split; [reflexivity|]. rewrite zlen_upd. split; [exact L|]. split.
    + intros j Hj. rewrite nthZ_upd by lia. destruct (Z.eqb_spec j i) as [-> |]; [reflexivity | apply P1; lia].
    + intros j Hj. rewrite nthZ_upd by lia. replace (j =? i) with false by lia. apply P2. lia.
  - exists r. split; [exact E|]. split; [exact L|]. split; [exact P1 | exact P2].
Qed.
Lemma rhs_glob_ok ne ni ltg rhs : zlen ni = zlen ne -> zlen ltg = zlen ne -> NoDup ltg -> (forall g, In g ltg -> 0 <= g < zlen rhs) -> exists r, update_rhs_glob ne ni ltg rhs = Ok r /\ zlen r = zlen rhs /\
  (forall i, 0 <= i < zlen ne -> nthZ 0%R r (nthZ 0 ltg i) = poisson_rhs (nthZ 0%R ne i) (nthZ 0%R ni i)) /\ (forall g, 0 <= g < zlen rhs -> ~ In g ltg -> nthZ 0%R r g = nthZ 0%R rhs g).
Proof.
  intros H1 H2 ND HB. unfold update_rhs_glob.
  assert (INJ : forall i j, 0 <= i < zlen ltg -> 0 <= j < zlen ltg -> nthZ 0 ltg i = nthZ 0 ltg j -> i = j).
  { intros i j Hi Hj E. rewrite NoDup_nth in ND. unfold nthZ in E. unfold zlen in *. assert (Z.to_nat i = Z.to_nat j); [apply (ND (Z.to_nat i) (Z.to_nat j)); [lia | lia | exact E] | lia]. }
  assert (HB' : forall i, 0 <= i < zlen ltg -> 0 <= nthZ 0 ltg i < zlen rhs) by (intros i Hi; apply HB, nthZ_In, Hi).
  destruct (foldM_range_inv (fun n r => zlen r = zlen rhs /\ (forall i, 0 <= i < n -> nthZ 0%R r (nthZ 0 ltg i) = poisson_rhs (nthZ 0%R ne i) (nthZ 0%R ni i)) /\ (forall g, 0 <= g < zlen rhs -> ~ In g ltg -> nthZ 0%R r g = nthZ 0%R rhs g))
    (fun rhs i => do g <- get ltg i; do a <- get ne i; do b <- get ni i; set rhs g (charge a b)) (zlen ne) rhs) as (r & E & L & P1 & P2).
  - apply zlen_nonneg.
  - split; [reflexivity|]. split; [intros; lia | reflexivity].
  - intros i r Hi (L & P1 & P2). rewrite (get_nthZ 0) by lia. cbn [bind]. rewrite !(get_nthZ 0%R) by lia. cbn [bind]. pose proof (HB' i ltac:(lia)) as B. rewrite set_upd by lia. eexists. split; [reflexivity|]. rewrite zlen_upd. split; [exact L|]. split.
    + intros j Hj. pose proof (HB' j ltac:(lia)) as B2. rewrite nthZ_upd by lia. destruct (Z.eqb_spec (nthZ 0 ltg j) (nthZ 0 ltg i)) as [Q|Q]; [rewrite (INJ j i) by lia; reflexivity|]. apply P1. assert (j <> i) by congruence. lia.
    + intros g Hg Ng. rewrite nthZ_upd by lia. destruct (Z.eqb_spec g (nthZ 0 ltg i)) as [Q|Q]; [|apply P2; assumption]. exfalso. apply Ng. rewrite Q. apply nthZ_In. lia.
  - exists r. split; [exact E|]. split; [exact L|]. split; [exact P1 | exact P2].
Qed.
(** after any number of calls only the last one counts, and the entries of other ranks stay zero *)
Lemma rhs_after_ok N ltg earlier ne ni : 0 <= N -> NoDup ltg -> (forall g, In g ltg -> 0 <= g < N) -> (forall c, In c (earlier ++ [(ne, ni)]) -> zlen (fst c) = zlen ltg /\ zlen (snd c) = zlen ltg) ->
  exists r, rhs_after N ltg (earlier ++ [(ne, ni)]) = Ok r /\ zlen r = N /\
  (forall i, 0 <= i < zlen ltg -> nthZ 0%R r (nthZ 0 ltg i) = poisson_rhs (nthZ 0%R ne i) (nthZ 0%R ni i)) /\ (forall g, 0 <= g < N -> ~ In g ltg -> nthZ 0%R r g = 0%R).
Proof.
  intros HN ND HB HC. unfold rhs_after. rewrite foldM_app.
  assert (G : forall l s, (forall c, In c l -> zlen (fst c) = zlen ltg /\ zlen (snd c) = zlen ltg) -> zlen s = N -> (forall g, 0 <= g < N -> ~ In g ltg -> nthZ 0%R s g = 0%R) ->
    exists r, foldM (fun rhs c => update_rhs_glob (fst c) (snd c) ltg rhs) l s = Ok r /\ zlen r = N /\ (forall g, 0 <= g < N -> ~ In g ltg -> nthZ 0%R r g = 0%R)).
  { clear HC. induction l as [|c l IH]; intros s HC Hs H0; [exists s; split; [reflexivity|]; split; assumption|]. cbn [foldM]. destruct (HC c (or_introl eq_refl)) as (C1 & C2).
    destruct (rhs_glob_ok (fst c) (snd c) ltg s) as (r & E & L & _ & P2); [lia | lia | exact ND | rewrite Hs; exact HB|]. rewrite E. cbn [bind]. apply IH; [intros; apply HC; right; assumption | lia|]. intros g Hg Ng. rewrite P2 by (assumption || lia). apply H0; assumption. }
  destruct (G earlier (zeros_like 0%R N)) as (r & E & L & P0); [intros; apply HC, in_or_app; left; assumption | apply zlen_zeros_like, HN | intros; apply nthZ_zeros; assumption|].
  rewrite E. cbn [bind foldM]. cbn [fst snd]. destruct (HC (ne, ni)) as (C1 & C2); [apply in_or_app; right; left; reflexivity|]. cbn [fst snd] in C1, C2.
  destruct (rhs_glob_ok ne ni ltg r) as (r' & E' & L' & P1 & P2); [lia | lia | exact ND | rewrite L; exact HB|]. rewrite E'. cbn [bind]. exists r'. split; [reflexivity|]. split; [lia|]. rewrite C1 in P1. split; [exact P1|].
  intros g Hg Ng. rewrite P2 by (assumption || lia). apply P0; assumption.
Qed.

Lemma fold_rsum (l : list (list R)) g a : fold_left (fun s x => s + nthZ 0 x g)%R l a = (a + rsum (map (fun x => nthZ 0%R x g) l))%R.
Proof. revert a. induction l as [|x l IH]; intros a; cbn [fold_left map]; [unfold rsum; cbn; ring|]. rewrite IH, rsum_cons. ring. Qed.

Lemma c49_ranks dim SIZE cells nodes ghost npart0 epart pa (earlier : Z -> list (list R * list R)) (ne ni : Z -> list R) :
  wf_input dim SIZE cells nodes ghost npart0 epart -> metis_contract cells nodes npart0 epart -> readmesh_parallel dim SIZE cells nodes ghost npart0 epart = Ok pa ->
  let l2g r := rf_loctoglob (file_of empty_file pa r) in let calls r := earlier r ++ [(ne r, ni r)] in
  (forall r c, 0 <= r < SIZE -> In c (calls r) -> zlen (fst c) = zlen (l2g r) /\ zlen (snd c) = zlen (l2g r)) ->
  exists arrays, mapM (fun r => rhs_after (zlen cells) (l2g r) (calls r)) (range SIZE) = Ok arrays /\
  let rhs := reduce_sum (zlen cells) arrays in zlen rhs = zlen cells /\
  (forall r i, 0 <= r < SIZE -> 0 <= i < zlen (l2g r) -> nthZ 0%R rhs (nthZ 0 (l2g r) i) = poisson_rhs (nthZ 0%R (ne r) i) (nthZ 0%R (ni r) i)) /\
  (forall g, is_cell cells g -> exists r i, 0 <= r < SIZE /\ 0 <= i < zlen (l2g r) /\ nthZ 0 (l2g r) i = g).
Proof.
  intros WI MC RP l2g calls HC. pose proof (c01 dim SIZE cells nodes ghost npart0 epart pa WI MC RP) as P. fold l2g in P.
  assert (ND : forall r, 0 <= r < SIZE -> NoDup (l2g r)).
  { intros r Hr. destruct (P r Hr) as (P1 & P2 & _). apply (NoDup_count_occ Z.eq_dec). intros c. destruct (in_dec Z.eq_dec c (l2g r)) as [I|I].
    - fold (l2g r) in P1, P2. rewrite P1 by (apply P2, I). destruct (r =? _); lia.
    - apply (count_occ_not_In Z.eq_dec) in I. lia. }
  assert (OWN : forall r g, 0 <= r < SIZE -> In g (l2g r) -> is_cell cells g /\ owner epart g = r).
  { intros r g Hr I. destruct (P r Hr) as (P1 & P2 & _). fold (l2g r) in P1, P2. split; [apply P2, I|]. specialize (P1 g (P2 g I)). apply (count_occ_In Z.eq_dec) in I. destruct (Z.eqb_spec r (owner epart g)); [congruence | lia]. }
  assert (EX : forall r, exists a, 0 <= r < SIZE -> rhs_after (zlen cells) (l2g r) (calls r) = Ok a /\ zlen a = zlen cells /\
    (forall i, 0 <= i < zlen (l2g r) -> nthZ 0%R a (nthZ 0 (l2g r) i) = poisson_rhs (nthZ 0%R (ne r) i) (nthZ 0%R (ni r) i)) /\ (forall g, 0 <= g < zlen cells -> ~ In g (l2g r) -> nthZ 0%R a g = 0%R)).
  { intros r. destruct (Z_lt_ge_dec r 0) as [|Q]; [exists []; lia|]. destruct (Z_lt_ge_dec r SIZE) as [Q2|]; [|exists []; lia].
    destruct (rhs_after_ok (zlen cells) (l2g r) (earlier r) (ne r) (ni r)) as (a & Ha); [apply zlen_nonneg | apply ND; lia | intros g Hg; apply (OWN r g); [lia | exact Hg] | intros c Hc; apply (HC r c); [lia | exact Hc]|]. exists a. intros _. exact Ha. }
  assert (S1 : 0 <= SIZE) by (pose proof (wf_size _ _ _ _ _ _ _ WI); lia).
  destruct (mapM_total (fun r => rhs_after (zlen cells) (l2g r) (calls r)) (range SIZE)) as (arrays & EA).
  { intros r Hr. apply in_range in Hr. destruct (EX r) as (a & Ha). destruct (Ha Hr) as (E & _). exists a. exact E. }
  exists arrays. split; [exact EA|]. cbv zeta.
  assert (LA : zlen arrays = SIZE) by (rewrite (mapM_zlen _ _ _ EA), zlen_range by exact S1; reflexivity).
  assert (PA : forall r, 0 <= r < SIZE -> (forall i, 0 <= i < zlen (l2g r) -> nthZ 0%R (nthZ [] arrays r) (nthZ 0 (l2g r) i) = poisson_rhs (nthZ 0%R (ne r) i) (nthZ 0%R (ni r) i)) /\ (forall g, 0 <= g < zlen cells -> ~ In g (l2g r) -> nthZ 0%R (nthZ [] arrays r) g = 0%R)).
  { intros r Hr. pose proof (mapM_nthZ _ _ _ 0 [] r EA) as Q. rewrite zlen_range in Q by exact S1. specialize (Q Hr). rewrite nthZ_range in Q by exact Hr. destruct (EX r) as (a & Ha). destruct (Ha Hr) as (E & _ & A1 & A2). rewrite E in Q. injection Q as Q. rewrite <- Q. split; assumption. }
  split; [unfold reduce_sum; rewrite zlen_map, zlen_range by apply zlen_nonneg; reflexivity|]. split.
  - intros r i Hr Hi. set (g := nthZ 0 (l2g r) i). assert (Ig : In g (l2g r)) by (apply nthZ_In; exact Hi). destruct (OWN r g Hr Ig) as (Cg & Og). unfold is_cell in Cg.
    unfold reduce_sum. rewrite (nthZ_map _ 0) by (rewrite zlen_range; lia). rewrite nthZ_range by lia. rewrite fold_rsum, Rplus_0_l.
    rewrite <- (map_nthZ_range [] arrays), LA, map_map. rewrite (rsum_map_ext _ (fun q => if r =? q then poisson_rhs (nthZ 0%R (ne r) i) (nthZ 0%R (ni r) i) else 0%R)); [apply rsum_delta; exact Hr|].
    intros q Hq. apply in_range in Hq. destruct (PA q Hq) as (A1 & A2). destruct (Z.eqb_spec r q) as [<- |NQ]; [apply A1; exact Hi|]. apply A2; [lia|]. intros I. destruct (OWN q g Hq I) as (_ & Q). congruence.
  - intros g Hg. pose proof (wf_epart _ _ _ _ _ _ _ WI g Hg) as B. destruct (P _ B) as (P1 & _). fold (l2g (owner epart g)) in P1. specialize (P1 g Hg). rewrite Z.eqb_refl in P1.
    assert (I : In g (l2g (owner epart g))) by (apply (count_occ_In Z.eq_dec); lia). destruct (In_nthZ 0 _ _ I) as (i & Hi & E). exists (owner epart g), i. split; [exact B|]. split; [exact Hi | exact E].
Qed.

(** C61 *)
Section S2.
Context (dim : Z) (vel E normal : list pt) (mesure volume : list R) (faceid : list (list Z)).
Hypothesis WT : wf_timestep dim vel normal mesure volume faceid.
Hypothesis HE : zlen E = zlen faceid.
Notation ws := (streamer_speed vel E normal volume faceid).
Notation field i := (nthZ vzero E i).

Lemma lam_ok i : 0 <= i < zlen faceid -> lam_streamer vel E normal mesure volume faceid dim i = Ok (if Req_EM_T (vlen (field i)) 0 then None else Some (ws i)).
Proof.
  intros Hi. destruct (wt_len _ _ _ _ _ _ WT) as (L1 & L2 & L3). destruct (wt_row _ _ _ _ _ _ WT i Hi) as (R1 & R2). pose proof (wt_vol _ _ _ _ _ _ WT i Hi) as V.
  assert (D1 : 0 < dim + 1) by (destruct (wt_dim _ _ _ _ _ _ WT); lia).
  unfold lam_streamer, get2. rewrite !(get_nthZ vzero) by lia. cbn [bind]. rewrite !norm3_vlen. cbv zeta. rewrite (get_nthZ [] faceid) by exact Hi. cbn [bind].
  rewrite (foldM_range_get (fun lam f => do n <- get normal f; do m <- get mesure f; do vol <- get volume i; _) (nthZ [] faceid i)) by (symmetry; exact R1).
  set (row := nthZ [] faceid i) in *.
  destruct (Req_EM_T (vlen (field i)) 0) as [Z0|NZ].
  - match goal with |- foldM ?g row _ = _ => set (step := g) end.
    assert (G0 : forall f o, In f row -> step o f = Ok None).
    { intros f o Hf. destruct (R2 f Hf) as (Rf & Mf). unfold step. rewrite (get_nthZ vzero normal) by exact Rf. cbn [bind]. rewrite (get_nthZ 0%R mesure) by lia. cbn [bind]. rewrite (get_nthZ 0%R volume) by lia. cbn [bind]. cbv zeta. rewrite odiv_some by lra. destruct o; reflexivity. }
    assert (G : forall l o, (forall f, In f l -> In f row) -> l <> [] -> foldM step l o = Ok None).
    { induction l as [|f l IH]; intros o Hsub Hne; [contradiction|]. cbn [foldM]. rewrite G0 by (apply Hsub; left; reflexivity). cbn [bind]. destruct l as [|f' l]; [reflexivity|]. apply IH; [intros; apply Hsub; right; assumption | discriminate]. }
    apply G; [auto|]. intros E0. rewrite E0 in R1. unfold zlen in R1. cbn in R1. lia.
  - unfold streamer_speed, wave_speed. fold row. cbn [px py pz].
    match goal with |- foldM ?g row _ = _ => set (step := g) end.
    match goal with |- _ = Ok (Some (rsum (map ?g row))) => set (sp := g) end.
    assert (ED : electron_diffusivity (field i) (nthZ vzero vel i) = diff_coef (vlen (field i)) (vlen (nthZ vzero vel i))) by (unfold electron_diffusivity, diff_coef; destruct (Req_EM_T _ 0); [contradiction | reflexivity]).
    assert (G0 : forall f a, In f row -> step (Some a) f = Ok (Some (a + sp f)%R)).
    { intros f a Hf. destruct (R2 f Hf) as (Rf & Mf). unfold step. rewrite (get_nthZ vzero normal) by exact Rf. cbn [bind]. rewrite (get_nthZ 0%R mesure) by lia. cbn [bind]. rewrite (get_nthZ 0%R volume) by lia. cbn [bind]. cbv zeta.
      unfold sp. cbv zeta. set (n := nthZ vzero normal f). set (u := nthZ vzero vel i) in *. rewrite !odiv_some by lra. cbn [oadd]. f_equal. f_equal.
      fold (vdot u n). fold (vdot n n). rewrite pow2_sqrt by apply vdot_self_nonneg. rewrite ED. field. split; lra. }
    assert (G : forall l a, (forall f, In f l -> In f row) -> foldM step l (Some a) = Ok (Some (a + rsum (map sp l))%R)).
    { induction l as [|f l IH]; intros a Hsub; [cbn [foldM map]; unfold rsum; cbn [fold_right]; rewrite Rplus_0_r; reflexivity|].
      cbn [foldM]. rewrite G0 by (apply Hsub; left; reflexivity). cbn [bind]. rewrite IH by (intros g Hg; apply Hsub; right; exact Hg). f_equal. f_equal. cbn [map]. rewrite rsum_cons. ring. }
    rewrite G by (intros f Hf; exact Hf). rewrite Rplus_0_l. reflexivity.
Qed.
Lemma sp_nonneg i : 0 <= i < zlen faceid -> (0 <= ws i)%R.
Proof. intros Hi. unfold streamer_speed. apply (ws_nonneg dim vel normal mesure volume faceid _ WT); [cbn [px py pz]; pose proof (diffusivity_nonneg (field i) (nthZ vzero vel i)); lra | exact Hi]. Qed.
Lemma c61 cfl : (0 < cfl)%R -> exists dt, time_step_streamer vel E cfl normal mesure volume faceid dim = Ok (Some dt) /\ (0 < dt <= 1000000)%R /\
  (forall i, 0 <= i < zlen faceid -> field i <> vzero -> (0 <= ws i /\ dt * ws i <= cfl * nthZ 0 volume i)%R) /\
  (dt = 1000000%R \/ exists i, 0 <= i < zlen faceid /\ field i <> vzero /\ (ws i <> 0)%R /\ dt = (cfl * nthZ 0 volume i / ws i)%R).
Proof.
  intros Hc. unfold time_step_streamer.
  assert (FZ : forall i, field i <> vzero <-> vlen (field i) <> 0%R) by (intros i; split; [intros H E0; apply H, vlen_0, E0 | intros H E0; apply H; rewrite E0; apply vlen_zero]).
  destruct (foldM_range_inv (fun n o => exists dt, o = Some dt /\ (0 < dt <= 1000000)%R /\
    (forall i, 0 <= i < n -> field i <> vzero -> (ws i <> 0 -> dt <= cfl * nthZ 0 volume i / ws i)%R) /\
    (dt = 1000000%R \/ exists i, 0 <= i < n /\ field i <> vzero /\ (ws i <> 0)%R /\ dt = (cfl * nthZ 0 volume i / ws i)%R))
    (fun dt i => do lam <- lam_streamer vel E normal mesure volume faceid dim i; do vol <- get volume i; ret (min_dt dt (cfl * vol) lam)) (zlen faceid) (Some 1000000%R)) as (o & EQ & dt & -> & B & F & M).
  - apply zlen_nonneg.
  - exists 1000000%R. split; [reflexivity|]. split; [lra|]. split; [intros; lia | left; reflexivity].
  - intros i o Hi (dt & -> & B & F & M). rewrite lam_ok by exact Hi. cbn [bind]. destruct (wt_len _ _ _ _ _ _ WT) as (L1 & L2 & L3). rewrite (get_nthZ 0%R) by lia. cbn [bind]. eexists. split; [reflexivity|].
    pose proof (wt_vol _ _ _ _ _ _ WT i Hi) as V. pose proof (sp_nonneg i Hi) as W. assert (P : (0 < cfl * nthZ 0 volume i)%R) by (apply Rmult_lt_0_compat; assumption).
    assert (KEEP : (field i = vzero \/ ws i = 0%R) -> exists dt0, Some dt = Some dt0 /\ (0 < dt0 <= 1000000)%R /\
      (forall j, 0 <= j < i + 1 -> field j <> vzero -> (ws j <> 0 -> dt0 <= cfl * nthZ 0 volume j / ws j)%R) /\
      (dt0 = 1000000%R \/ exists j, 0 <= j < i + 1 /\ field j <> vzero /\ (ws j <> 0)%R /\ dt0 = (cfl * nthZ 0 volume j / ws j)%R)).
    { intros K. exists dt. split; [reflexivity|]. split; [exact B|]. split.
      - intros j Hj Ej Nj. destruct (Z.eq_dec j i) as [-> |]; [destruct K; contradiction | apply F; [lia | exact Ej | exact Nj]].
      - destruct M as [M|(j & Hj & Ej & Nj & M)]; [left; exact M | right; exists j; split; [lia | split; [exact Ej | split; assumption]]]. }
    unfold min_dt. destruct (Req_EM_T (vlen (field i)) 0) as [Z0|NZ]; [apply KEEP; left; apply vlen_0, Z0|].
    destruct (Req_EM_T (ws i) 0) as [Z1|NZ1].
    + destruct (Rlt_dec (cfl * nthZ 0 volume i)%R 0) as [N|_]; [lra|]. apply KEEP. right. exact Z1.
    + assert (Q : (0 < cfl * nthZ 0 volume i / ws i)%R) by (apply Rdiv_lt_0_compat; lra). eexists. split; [reflexivity|]. split; [split; [apply Rmin_glb_lt; lra | pose proof (Rmin_l dt (cfl * nthZ 0 volume i / ws i)%R); lra]|]. split.
      * intros j Hj Ej Nj. destruct (Z.eq_dec j i) as [-> |]; [apply Rmin_r|]. eapply Rle_trans; [apply Rmin_l | apply F; [lia | exact Ej | exact Nj]].
      * unfold Rmin. destruct (Rle_dec _ _); [destruct M as [M|(j & Hj & Ej & Nj & M)]; [left; exact M | right; exists j; split; [lia | split; [exact Ej | split; assumption]]] | right; exists i; split; [lia | split; [apply FZ, NZ | split; [exact NZ1 | reflexivity]]]].
  - exists dt. split; [exact EQ|]. split; [exact B|]. split; [|exact M]. intros i Hi Ei. pose proof (sp_nonneg i Hi) as W. split; [exact W|].
    pose proof (wt_vol _ _ _ _ _ _ WT i Hi) as V. assert (P : (0 < cfl * nthZ 0 volume i)%R) by (apply Rmult_lt_0_compat; assumption). destruct (Req_EM_T (ws i) 0) as [Z0|NZ]; [rewrite Z0; lra|]. specialize (F i Hi Ei NZ).
    apply Rle_trans with (cfl * nthZ 0 volume i / ws i * ws i)%R; [apply Rmult_le_compat_r; assumption|]. unfold Rdiv. rewrite Rmult_assoc, Rinv_l, Rmult_1_r by exact NZ. apply Rle_refl.
Qed.
End S2.
