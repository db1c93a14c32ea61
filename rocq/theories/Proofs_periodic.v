(** * Proofs_periodic: C63-C65 *)
From Coq Require Import Reals Lra.
From Verif Require Import Py PyLemmas Model_part Model_label Model_conn Model_geom Model_halo Model_periodic Spec_geom Spec_interp Spec_periodic
  Proofs_label Proofs_conn1 Proofs_conn3 Proofs_interp1 Proofs_bc.
Open Scope Z_scope.

Lemma key_eqb_spec a b : reflect (a = b) (key_eqb a b).
Proof.
  destruct a as [[x y] z], b as [[x' y'] z']. cbn. destruct (Req_EM_T x x') as [->|N]; [|constructor; congruence]. destruct (Req_EM_T y y') as [->|N]; [|constructor; congruence].
  destruct (Req_EM_T z z') as [->|N]; constructor; congruence.
Qed.
Lemma kget_ok d k v : In (k, v) d -> (forall v', In (k, v') d -> v' = v) -> kget d k = Ok v.
Proof.
  intros H U. unfold kget. destruct (find (fun p => key_eqb (fst p) k) d) as [[k' v']|] eqn:E.
  - apply find_some in E. destruct E as (H1 & H2). cbn in H2. destruct (key_eqb_spec k' k) as [->|]; [|discriminate]. cbn. f_equal. apply U; exact H1.
  - pose proof (find_none _ _ E _ H) as N. cbn in N. destruct (key_eqb_spec k k); congruence.
Qed.
Lemma kget_none d k : (forall v, ~ In (k, v) d) -> kget d k = Err KeyError.
Proof.
  intros H. unfold kget. destruct (find (fun p => key_eqb (fst p) k) d) as [[k' v']|] eqn:E; [|reflexivity].
  apply find_some in E. destruct E as (H1 & H2). cbn in H2. destruct (key_eqb_spec k' k) as [->|]; [|discriminate]. destruct (H _ H1).
Qed.

Lemma fold_max_ge a l m : (m <= fold_left (fun m q => Rmax m (coord a q)) l m)%R /\ (forall p, In p l -> coord a p <= fold_left (fun m q => Rmax m (coord a q)) l m)%R.
Proof.
  revert m. induction l as [|q l IH]; intros m; cbn [fold_left]; [split; [lra | intros p []]|]. destruct (IH (Rmax m (coord a q))) as (A & B). pose proof (Rmax_l m (coord a q)). pose proof (Rmax_r m (coord a q)).
  split; [lra|]. intros p [<-|H1]; [lra | apply B; exact H1].
Qed.
Lemma fold_max_in a l m : fold_left (fun m q => Rmax m (coord a q)) l m = m \/ exists p, In p l /\ coord a p = fold_left (fun m q => Rmax m (coord a q)) l m.
Proof.
  revert m. induction l as [|q l IH]; intros m; cbn [fold_left]; [left; reflexivity|]. destruct (IH (Rmax m (coord a q))) as [E|(p & Hp & E)].
  - rewrite E. destruct (Rle_dec m (coord a q)) as [Q|Q]; [right; exists q; split; [left; reflexivity|]; rewrite Rmax_right by exact Q; reflexivity | left; apply Rmax_left; lra].
  - right. exists p. split; [right; exact Hp | exact E].
Qed.
Lemma max_reaches a l : l <> [] -> exists L, max_coord a l = Ok L /\ reaches a L l.
Proof.
  destruct l as [|p t]; [congruence|]. intros _. cbn. eexists. split; [reflexivity|]. destruct (fold_max_ge a t (coord a p)) as (A & B). split.
  - intros q [<-|H]; [exact A | apply B; exact H].
  - destruct (fold_max_in a t (coord a p)) as [E|(q & Hq & E)]; [exists p; split; [left; reflexivity | symmetry; exact E] | exists q; split; [right; exact Hq | exact E]].
Qed.
Lemma max_coord_ok a L l : reaches a L l -> max_coord a l = Ok L.
Proof.
  intros (A & p & Hp & E). destruct (max_reaches a l) as (M & EM & B & q & Hq & Eq); [intros ->; destruct Hp|]. rewrite EM. f_equal. pose proof (A q Hq). pose proof (B p Hp). lra.
Qed.

Lemma across_keys f32 b a L p q : across a L p q -> f32 0%R = 0%R -> f32 L = L -> key_moved f32 b a L p = key_of f32 q /\ key_moved f32 b a (- L) q = key_of f32 p.
Proof.
  intros (E & ->) Z0 ZL. destruct p as [x y z]. unfold key_moved, key_of. destruct a, b; cbn in *; subst; rewrite ?Z0, ?ZL, ?Rplus_0_l, ?Rplus_opp_r, ?Z0, ?ZL; split; reflexivity.
Qed.

Lemma counted_map row n : row_ok n row -> map (nthZ 0 row) (range (row_count row)) = counted row.
Proof. intros (HL & HC & HR). rewrite firstn_nthZ by lia. reflexivity. Qed.
Lemma last_count {A} row (k : Z -> res A) n : row_ok n row -> (do m <- get row (-1); k m) = k (row_count row).
Proof. intros (HL & HC & HR). rewrite (get_last 0) by exact HL. reflexivity. Qed.

(** ** one loop over the faces of a side *)
Lemma shift_loop a sh n l : forall t, zlen t = n -> (forall c, In c l -> 0 <= c < n) ->
  exists t', foldM (fun t c => do p <- get t c; set t c (set_coord a p sh)) l t = Ok t' /\ zlen t' = n /\
    forall c, 0 <= c < n -> (In c l -> nthZ vzero t' c = set_coord a (nthZ vzero t c) sh) /\ (~ In c l -> nthZ vzero t' c = nthZ vzero t c).
Proof.
  intros t Ht HL.
  destruct (foldM_inv (fun done t' => zlen t' = n /\ forall c, 0 <= c < n -> (In c done -> nthZ vzero t' c = set_coord a (nthZ vzero t c) sh) /\ (~ In c done -> nthZ vzero t' c = nthZ vzero t c))
    (fun t c => do p <- get t c; set t c (set_coord a p sh)) l t) as (t' & E & H1 & H2).
  - split; [exact Ht|]. intros c Hc. split; [intros [] | reflexivity].
  - intros done x rest s E (H1 & H2). assert (Hx : 0 <= x < n) by (apply HL; rewrite E; apply in_or_app; right; left; reflexivity).
    rewrite (get_nthZ vzero) by lia. cbn [bind]. rewrite set_upd by lia. eexists. split; [reflexivity|]. split; [rewrite zlen_upd; exact H1|]. intros c Hc. rewrite nthZ_upd by lia.
    destruct (H2 c Hc) as (A & B). destruct (Z.eqb_spec c x) as [->|N].
    + split; [intros _ | intros Nx; exfalso; apply Nx; apply in_or_app; right; left; reflexivity]. destruct (in_dec Z.eq_dec x done) as [D|D]; [rewrite (A D) | rewrite (B D); reflexivity]. destruct (nthZ vzero t x), a; reflexivity.
    + split; intros H; [apply A | apply B; intro; apply H; apply in_or_app; left; assumption]. apply in_app_or in H. destruct H as [H|[H|[]]]; [exact H | congruence].
  - exists t'. repeat split; try assumption; intros; apply H2; assumption.
Qed.

Lemma classic_touch {A} (P : A -> Prop) (l : list A) : (forall x, {P x} + {~ P x}) -> (exists x, In x l /\ P x) \/ ~ (exists x, In x l /\ P x).
Proof.
  intros D. induction l as [|x l IH]; [right; intros (x & [] & _)|]. destruct (D x) as [H|H]; [left; exists x; split; [left; reflexivity | exact H]|].
  destruct IH as [(y & Hy & H1)|N]; [left; exists y; split; [right; exact Hy | exact H1] | right; intros (y & [<-|Hy] & H1); [contradiction | apply N; exists y; auto]].
Qed.

Section Faces.
Context (f32 : R -> R) (I : pinput) (n nf : Z) (dict : kdict) (inside : bool) (a : axis) (d sh : R) (cp : Z -> Z).
Hypothesis Hrows : forall c, 0 <= c < n -> row_ok n (nthZ [] (pi_cellnid I) c).
Hypothesis Hcn : zlen (pi_cellnid I) = n.
Hypothesis Hfc : zlen (pi_fcenter I) = nf.
Hypothesis Hn0 : 0 <= n.

Record sized (s : pstate) : Prop := { sz_cellid : zlen (ps_cellid s) = nf; sz_fid : zlen (ps_fid s) = n; sz_nid : zlen (ps_nid s) = n; sz_shift : zlen (ps_shift s) = n;
  sz_in : forall c x, 0 <= c < n -> In x (nthZ [] (ps_nid s) c) -> 0 <= x < n }.
Definition c0 (s : pstate) (f : Z) : Z := cell_of (ps_cellid s) f.

Record faces_done (s : pstate) (l : list Z) (s' : pstate) : Prop := {
  fd_sized : sized s';
  fd_cellid : forall f, 0 <= f < nf -> (In f l -> nthZ [] (ps_cellid s') f = [c0 s f; cp f]) /\ (~ In f l -> nthZ [] (ps_cellid s') f = nthZ [] (ps_cellid s) f);
  fd_nid : forall c, 0 <= c < n -> nthZ [] (ps_nid s') c = nthZ [] (ps_nid s) c ++ flat_map (fun f => counted (nthZ [] (pi_cellnid I) (cp f))) (filter (fun f => c0 s f =? c) l);
  fd_shift : forall c, 0 <= c < n -> ((exists f, In f l /\ In c (nthZ [] (ps_nid s') (c0 s f))) -> nthZ vzero (ps_shift s') c = set_coord a (nthZ vzero (ps_shift s) c) sh) /\
                                     (~ (exists f, In f l /\ In c (nthZ [] (ps_nid s') (c0 s f))) -> nthZ vzero (ps_shift s') c = nthZ vzero (ps_shift s) c);
  fd_node : ps_node s' = ps_node s; fd_ghost : ps_ghost s' = ps_ghost s }.

Lemma per_faces_ok l s : sized s -> NoDup l ->
  (forall f, In f l -> 0 <= f < nf /\ zlen (nthZ [] (ps_cellid s) f) = 2 /\ 0 <= c0 s f < n /\ 0 <= cp f < n /\ kget dict (key_moved f32 inside a d (nthZ vzero (pi_fcenter I) f)) = Ok (cp f)) ->
  exists s', foldM (per_face f32 I dict inside a d sh) l s = Ok s' /\ faces_done s l s'.
Proof.
  intros SZ ND HF. apply foldM_inv.
  - split; [exact SZ | | | | reflexivity | reflexivity].
    + intros f _. split; [intros [] | reflexivity].
    + intros c _. cbn [filter flat_map]. rewrite app_nil_r. reflexivity.
    + intros c _. split; [intros (f & [] & _) | reflexivity].
  - intros done f rest s1 E D. assert (Hin : In f l) by (rewrite E; apply in_or_app; right; left; reflexivity). destruct (HF f Hin) as (Hf & Hl & H0 & H1 & HK).
    assert (Nf : ~ In f done). { intros Hd. rewrite E in ND. apply NoDup_remove_2 in ND. apply ND. apply in_or_app; left; exact Hd. }
    destruct (fd_cellid _ _ _ D f Hf) as (_ & Er). specialize (Er Nf). pose proof (fd_sized _ _ _ D) as Z1.
    assert (E0 : nthZ [] (ps_cellid s1) f = [c0 s f; nthZ 0 (nthZ [] (ps_cellid s) f) 1]).
    { rewrite Er. unfold c0, cell_of. destruct (nthZ [] (ps_cellid s) f) as [|x [|y [|z r]]]; try (cbn in Hl; discriminate); [reflexivity|]. rewrite !zlen_cons in Hl. pose proof (zlen_nonneg r). lia. }
    unfold per_face. rewrite (get_nthZ vzero) by (rewrite Hfc; exact Hf). cbn [bind]. rewrite HK. cbn [bind]. unfold set2. rewrite (get_nthZ []) by (rewrite (sz_cellid _ Z1); exact Hf). cbn [bind]. rewrite E0.
    change (set [c0 s f; nthZ 0 (nthZ [] (ps_cellid s) f) 1] 1 (cp f)) with (ret [c0 s f; cp f]). cbn [bind]. rewrite set_upd by (rewrite (sz_cellid _ Z1); exact Hf). cbn [bind].
    unfold get2 at 1. rewrite (get_nthZ []) by (rewrite zlen_upd, (sz_cellid _ Z1); exact Hf). cbn [bind]. rewrite nthZ_upd_eq by (rewrite (sz_cellid _ Z1); exact Hf).
    change (get [c0 s f; cp f] 0) with (ret (c0 s f)). cbn [bind]. rewrite set_upd by (rewrite (sz_fid _ Z1); exact H0). cbn [bind].
    rewrite (get_nthZ []) by (rewrite Hcn; exact H1). cbn [bind]. rewrite (last_count _ _ n) by (apply Hrows; exact H1). pose proof (Hrows _ H1) as Rok.
    set (row := nthZ [] (pi_cellnid I) (cp f)) in *.
    rewrite (append_row_ok (get row) (nthZ 0 row)) by (try (rewrite (sz_nid _ Z1); exact H0); intros j Hj; apply in_range in Hj; destruct Rok as (R1 & R2 & R3); apply get_nthZ; lia).
    cbn [bind]. rewrite (counted_map row n Rok). set (nid' := upd (ps_nid s1) (c0 s f) (nthZ [] (ps_nid s1) (c0 s f) ++ counted row)).
    assert (Hnid' : nthZ [] nid' (c0 s f) = nthZ [] (ps_nid s1) (c0 s f) ++ counted row) by (unfold nid'; rewrite nthZ_upd_eq by (rewrite (sz_nid _ Z1); exact H0); reflexivity).
    rewrite (get_nthZ []) by (unfold nid'; rewrite zlen_upd, (sz_nid _ Z1); exact H0). cbn [bind]. rewrite Hnid'.
    destruct (shift_loop a sh n (nthZ [] (ps_nid s1) (c0 s f) ++ counted row) (ps_shift s1) (sz_shift _ Z1)) as (t' & Et & Lt & Ht).
    { intros c Hc. apply in_app_or in Hc. destruct Hc as [Hc|Hc]; [apply (sz_in _ Z1 _ _ H0 Hc) | destruct Rok as (_ & _ & R3); apply R3; exact Hc]. }
    rewrite Et. cbn [bind]. eexists. split; [reflexivity|].
    assert (Nid : forall c, 0 <= c < n -> nthZ [] nid' c = nthZ [] (ps_nid s) c ++ flat_map (fun f => counted (nthZ [] (pi_cellnid I) (cp f))) (filter (fun f => c0 s f =? c) (done ++ [f]))).
    { intros c Hc. unfold nid'. rewrite nthZ_upd by (rewrite ?(sz_nid _ Z1); lia). rewrite filter_app, flat_map_app. cbn [filter]. destruct (Z.eqb_spec c (c0 s f)) as [->|N].
      - rewrite Z.eqb_refl. cbn [flat_map]. rewrite app_nil_r, (fd_nid _ _ _ D) by exact H0. rewrite <- app_assoc. reflexivity.
      - destruct (Z.eqb_spec (c0 s f) c); [congruence|]. cbn [flat_map]. rewrite app_nil_r. apply (fd_nid _ _ _ D); exact Hc. }
    split; cbn [ps_cellid ps_nid ps_shift ps_node ps_ghost ps_fid].
    + split; cbn [ps_cellid ps_nid ps_shift ps_node ps_ghost ps_fid]; rewrite ?zlen_upd; try apply Z1; [unfold nid'; rewrite zlen_upd; apply Z1 | exact Lt |].
      intros c x Hc. destruct (Z.eq_dec c (c0 s f)) as [->|N]; [rewrite Hnid' | unfold nid'; rewrite nthZ_upd_neq by lia; apply (sz_in _ Z1); exact Hc].
      intros Hx. apply in_app_or in Hx. destruct Hx as [Hx|Hx]; [apply (sz_in _ Z1 _ _ H0 Hx) | destruct Rok as (_ & _ & R3); apply R3; exact Hx].
    + intros g Hg. destruct (fd_cellid _ _ _ D g Hg) as (A & B). rewrite nthZ_upd by (rewrite ?(sz_cellid _ Z1); lia). destruct (Z.eqb_spec g f) as [->|N].
      * split; [reflexivity | intros X; exfalso; apply X; apply in_or_app; right; left; reflexivity].
      * split; intros X; [apply A | apply B; intro; apply X; apply in_or_app; left; assumption]. apply in_app_or in X. destruct X as [X|[X|[]]]; [exact X | congruence].
    + exact Nid.
    + intros c Hc. destruct (Ht c Hc) as (T1 & T2). destruct (fd_shift _ _ _ D c Hc) as (S1 & S2).
      assert (Mono : forall b x, 0 <= b < n -> In x (nthZ [] (ps_nid s1) b) -> In x (nthZ [] nid' b)).
      { intros b x Hb Hx. destruct (Z.eq_dec b (c0 s f)) as [->|N]; [rewrite Hnid'; apply in_or_app; left; exact Hx | unfold nid'; rewrite nthZ_upd_neq by lia; exact Hx]. }
      destruct (in_dec Z.eq_dec c (nthZ [] (ps_nid s1) (c0 s f) ++ counted row)) as [Y|Y].
      * rewrite (T1 Y). split.
        -- intros _. destruct (classic_touch (fun f => In c (nthZ [] (ps_nid s1) (c0 s f))) done (fun f => in_dec Z.eq_dec c _)) as [W|W]; [rewrite (S1 W); destruct (nthZ vzero (ps_shift s) c), a; reflexivity | rewrite (S2 W); reflexivity].
        -- intros X. exfalso. apply X. exists f. split; [apply in_or_app; right; left; reflexivity | rewrite Hnid'; exact Y].
      * rewrite (T2 Y).
        assert (Q : (exists g, In g (done ++ [f]) /\ In c (nthZ [] nid' (c0 s g))) <-> exists g, In g done /\ In c (nthZ [] (ps_nid s1) (c0 s g))).
        { split; intros (g & Hg & Hc').
          - apply in_app_or in Hg. destruct Hg as [Hg|[<-|[]]]; [|rewrite Hnid' in Hc'; contradiction]. exists g. split; [exact Hg|].
            destruct (Z.eq_dec (c0 s g) (c0 s f)) as [Ec|Nc]; [rewrite Ec, Hnid' in Hc'; contradiction|]. unfold nid' in Hc'. rewrite nthZ_upd_neq in Hc'; [exact Hc' | lia | | lia].
            apply HF. rewrite E. apply in_or_app; left; exact Hg.
          - exists g. split; [apply in_or_app; left; exact Hg | apply Mono; [|exact Hc']]. apply HF. rewrite E. apply in_or_app; left; exact Hg. }
        split; intros X; [apply S1; apply Q; exact X | apply S2; intro; apply X; apply Q; assumption].
    + apply (fd_node _ _ _ D).
    + apply (fd_ghost _ _ _ D).
Qed.
End Faces.

(** ** dictionaries *)
Lemma face_dict_ok f32 I cellid l : (forall i, In i l -> 0 <= i < zlen (pi_fcenter I) /\ 0 <= i < zlen cellid /\ 0 < zlen (nthZ [] cellid i)) ->
  face_dict f32 I cellid l = Ok (rev (map (fun i => (key_of f32 (nthZ vzero (pi_fcenter I) i), cell_of cellid i)) l)).
Proof.
  intros H. unfold face_dict. set (g := fun i => (key_of f32 (nthZ vzero (pi_fcenter I) i), cell_of cellid i)).
  assert (G : forall d, (forall i, In i l -> 0 <= i < zlen (pi_fcenter I) /\ 0 <= i < zlen cellid /\ 0 < zlen (nthZ [] cellid i)) ->
    foldM (fun d i => do x <- get (pi_fcenter I) i; do c <- get2 cellid i 0; ret ((key_of f32 x, c) :: d)) l d = Ok (rev (map g l) ++ d)).
  { clear H. induction l as [|i l IH]; intros d H; cbn [foldM map rev]; [reflexivity|]. destruct (H i (or_introl eq_refl)) as (H1 & H2 & H3).
    rewrite (get_nthZ vzero) by exact H1. cbn [bind]. unfold get2 at 1. rewrite (get_nthZ []) by exact H2. cbn [bind]. rewrite (get_nthZ 0) by lia. cbn [bind].
    rewrite IH by (intros; apply H; right; assumption). rewrite <- app_assoc. reflexivity. }
  rewrite G by exact H. rewrite app_nil_r. reflexivity.
Qed.
Lemma kget_dict (K : Z -> key) (V : Z -> Z) l i : In i l -> (forall j, In j l -> K j = K i -> j = i) -> kget (rev (map (fun i => (K i, V i)) l)) (K i) = Ok (V i).
Proof.
  intros Hi U. apply kget_ok.
  - rewrite <- in_rev. apply in_map_iff. exists i. auto.
  - intros v Hv. rewrite <- in_rev in Hv. apply in_map_iff in Hv. destruct Hv as (j & E & Hj). injection E as E1 E2. rewrite <- E2. f_equal. apply U; assumption.
Qed.
Lemma mget_dict (K : Z -> key) (V : Z -> list Z) l i : In i l -> NoDup l -> (forall j, In j l -> K j = K i -> j = i) -> V i <> [] ->
  mget (flat_map (fun i => map (pair (K i)) (V i)) l) (K i) = Ok (V i).
Proof.
  intros Hi ND U NE. unfold mget.
  assert (F : filter (fun p => key_eqb (fst p) (K i)) (flat_map (fun i => map (pair (K i)) (V i)) l) = map (pair (K i)) (V i)).
  { apply in_split in Hi. destruct Hi as (l1 & l2 & ->). rewrite flat_map_app. cbn [flat_map]. rewrite !filter_app.
    assert (N : forall l', (forall j, In j l' -> In j (l1 ++ i :: l2) /\ j <> i) -> filter (fun p => key_eqb (fst p) (K i)) (flat_map (fun i => map (pair (K i)) (V i)) l') = []).
    { induction l' as [|j l' IH]; intros H; [reflexivity|]. cbn [flat_map]. rewrite filter_app, IH by (intros; apply H; right; assumption). rewrite app_nil_r.
      destruct (H j (or_introl eq_refl)) as (H1 & H2). induction (V j) as [|v vs IHv]; [reflexivity|]. cbn [map filter fst]. destruct (key_eqb_spec (K j) (K i)) as [E|_]; [destruct (H2 (U j H1 E)) | exact IHv]. }
    rewrite !N.
    - cbn [app]. rewrite app_nil_r. clear. induction (V i) as [|v vs IHv]; [reflexivity|]. cbn [map filter fst]. destruct (key_eqb_spec (K i) (K i)) as [_|E]; [f_equal; exact IHv | congruence].
    - intros j Hj. split; [apply in_or_app; right; right; exact Hj|]. intros ->. apply NoDup_remove_2 in ND. apply ND. apply in_or_app; right; exact Hj.
    - intros j Hj. split; [apply in_or_app; left; exact Hj|]. intros ->. apply NoDup_remove_2 in ND. apply ND. apply in_or_app; left; exact Hj. }
  rewrite F. destruct (V i) as [|v vs]; [congruence|]. cbn [map]. f_equal. cbn [map snd]. f_equal. rewrite map_map. cbn. apply map_id.
Qed.

Lemma node_dict_ok f32 I n l j : (forall i, In i l -> 0 <= i < zlen (pi_vertex I) /\ 0 <= i < zlen (pi_nodecell I) /\ row_ok n (nthZ [] (pi_nodecell I) i)) ->
  exists j', node_dict f32 I l j = Ok (flat_map (fun i => map (pair (key_of f32 (nthZ vzero (pi_vertex I) i))) (counted (nthZ [] (pi_nodecell I) i))) l, j') /\
    (l = [] -> j' = j) /\ ((forall i, In i l -> 0 < row_count (nthZ [] (pi_nodecell I) i)) -> forall i l1, l = l1 ++ [i] -> j' = Some (row_count (nthZ [] (pi_nodecell I) i) - 1)).
Proof.
  intros H. unfold node_dict.
  set (G := fun (done : list Z) (p : kdict * option Z) => fst p = flat_map (fun i => map (pair (key_of f32 (nthZ vzero (pi_vertex I) i))) (counted (nthZ [] (pi_nodecell I) i))) done /\
     (done = [] -> snd p = j) /\ ((forall i, In i done -> 0 < row_count (nthZ [] (pi_nodecell I) i)) -> forall i l1, done = l1 ++ [i] -> snd p = Some (row_count (nthZ [] (pi_nodecell I) i) - 1))).
  match goal with |- context [foldM ?f l ([], j)] => destruct (foldM_inv G f l ([], j)) as ((d' & j') & E & A & B & C) end.
  - split; [reflexivity|]. split; [reflexivity|]. intros _ i l1 E. destruct l1; discriminate.
  - intros done i rest (d & j1) E (A & B & C). cbn [fst snd] in *. destruct (H i) as (H1 & H2 & H3); [rewrite E; apply in_or_app; right; left; reflexivity|].
    rewrite (get_nthZ []) by exact H2. cbn [bind]. rewrite (last_count _ _ n) by exact H3. rewrite (get_nthZ vzero) by exact H1. cbn [bind]. set (row := nthZ [] (pi_nodecell I) i) in *.
    assert (F : foldM (fun d j => do c <- get row j; ret (d ++ [(key_of f32 (nthZ vzero (pi_vertex I) i), c)])) (range (row_count row)) d = Ok (d ++ map (pair (key_of f32 (nthZ vzero (pi_vertex I) i))) (counted row))).
    { rewrite <- (counted_map row n H3). destruct H3 as (R1 & R2 & R3). assert (Q : forall k, In k (range (row_count row)) -> 0 <= k < zlen row) by (intros k Hk; apply in_range in Hk; lia). revert d A. generalize (range (row_count row)) as ks, Q. clear.
      induction ks as [|k ks IH]; intros Q d A; cbn [foldM map]; [rewrite app_nil_r; reflexivity|]. rewrite (get_nthZ 0) by (apply Q; left; reflexivity). cbn [bind].
      assert (IH' : forall d, foldM (fun d j => do c <- get row j; ret (d ++ [(key_of f32 (nthZ vzero (pi_vertex I) i), c)])) ks d = Ok (d ++ map (pair (key_of f32 (nthZ vzero (pi_vertex I) i))) (map (nthZ 0 row) ks))).
      { clear IH A d. assert (Q' : forall k, In k ks -> 0 <= k < zlen row) by (intros; apply Q; right; assumption). clear Q k. induction ks as [|k ks IH]; intros d; cbn [foldM map]; [rewrite app_nil_r; reflexivity|].
        rewrite (get_nthZ 0) by (apply Q'; left; reflexivity). cbn [bind]. rewrite IH by (intros; apply Q'; right; assumption). rewrite <- app_assoc. reflexivity. }
      rewrite IH'. rewrite <- app_assoc. reflexivity. }
    rewrite F. cbn [bind]. eexists. split; [reflexivity|]. unfold G. cbn [fst snd]. split; [|split].
    + rewrite A, flat_map_app. cbn [flat_map]. rewrite app_nil_r. reflexivity.
    + intros X. destruct done; discriminate X.
    + intros P i' l1 E1. apply app_inj_tail in E1. destruct E1 as (_ & <-). assert (0 < row_count row) by (apply P; apply in_or_app; right; left; reflexivity).
      unfold after_loop. destruct (Z.ltb_spec 0 (row_count row)); [reflexivity | lia].
  - exists j'. split; [|split; [exact B | exact C]]. cbn [fst snd] in A. rewrite <- A. exact E.
Qed.
Lemma node_dict_nojloop_ok f32 I l j : (forall i, In i l -> 0 <= i < zlen (pi_vertex I) /\ 0 <= i < zlen (pi_nodecell I) /\ exists k, j = Some k /\ 0 <= k < zlen (nthZ [] (pi_nodecell I) i)) ->
  node_dict_nojloop f32 I l j = Ok (flat_map (fun i => map (pair (key_of f32 (nthZ vzero (pi_vertex I) i))) [nthZ 0 (nthZ [] (pi_nodecell I) i) (match j with Some k => k | None => 0 end)]) l).
Proof.
  intros H. unfold node_dict_nojloop.
  match goal with |- foldM ?f l [] = Ok (flat_map ?g l) => assert (G : forall d, (forall i, In i l -> 0 <= i < zlen (pi_vertex I) /\ 0 <= i < zlen (pi_nodecell I) /\ exists k, j = Some k /\ 0 <= k < zlen (nthZ [] (pi_nodecell I) i)) -> foldM f l d = Ok (d ++ flat_map g l)) end.
  { clear H. induction l as [|i l IH]; intros d H; cbn [foldM flat_map]; [rewrite app_nil_r; reflexivity|]. destruct (H i (or_introl eq_refl)) as (H1 & H2 & k & -> & H3).
    rewrite (get_nthZ vzero) by exact H1. cbn [bind]. rewrite (get_nthZ []) by exact H2. cbn [bind]. rewrite (get_nthZ 0) by exact H3. cbn [bind].
    rewrite IH by (intros; apply H; right; assumption). rewrite <- app_assoc. reflexivity. }
  rewrite G by exact H. reflexivity.
Qed.

Record nodes_done (nn : Z) (s : pstate) (l : list Z) (ls : Z -> list Z) (s' : pstate) : Prop := {
  nd_other : ps_cellid s' = ps_cellid s /\ ps_fid s' = ps_fid s /\ ps_nid s' = ps_nid s /\ ps_shift s' = ps_shift s;
  nd_len : zlen (ps_node s') = nn /\ zlen (ps_ghost s') = nn;
  nd_node : forall i, 0 <= i < nn -> (In i l -> nthZ [] (ps_node s') i = nthZ [] (ps_node s) i ++ ls i) /\ (~ In i l -> nthZ [] (ps_node s') i = nthZ [] (ps_node s) i);
  nd_ghosts : forall i, 0 <= i < nn -> (In i l -> nthZ [] (ps_ghost s') i = [no_ghost]) /\ (~ In i l -> nthZ [] (ps_ghost s') i = nthZ [] (ps_ghost s) i) }.
Lemma per_nodes_ok f32 I nn dict a d ls l s : zlen (ps_node s) = nn -> zlen (ps_ghost s) = nn -> zlen (pi_vertex I) = nn -> NoDup l ->
  (forall i, In i l -> 0 <= i < nn /\ mget dict (key_moved f32 false a d (nthZ vzero (pi_vertex I) i)) = Ok (ls i)) ->
  exists s', foldM (per_node f32 I dict a d) l s = Ok s' /\ nodes_done nn s l ls s'.
Proof.
  intros L1 L2 L3 ND H. apply (foldM_inv (fun done s' => nodes_done nn s done ls s')).
  - split; [auto | auto | |]; intros i _; (split; [intros [] | reflexivity]).
  - intros done i rest s1 E D. destruct (H i) as (Hi & HM); [rewrite E; apply in_or_app; right; left; reflexivity|].
    assert (Ni : ~ In i done). { intros Hd. rewrite E in ND. apply NoDup_remove_2 in ND. apply ND. apply in_or_app; left; exact Hd. }
    destruct D as [(O1 & O2 & O3 & O4) (N1 & N2) N3 N4].
    unfold per_node. rewrite (get_nthZ vzero) by (rewrite L3; exact Hi). cbn [bind]. rewrite HM. cbn [bind]. rewrite extend_at_upd by (rewrite N1; exact Hi). cbn [bind]. rewrite set_upd by (rewrite N2; exact Hi). cbn [bind].
    eexists. split; [reflexivity|]. split; cbn [ps_cellid ps_nid ps_shift ps_node ps_ghost ps_fid].
    + auto.
    + rewrite !zlen_upd. auto.
    + intros k Hk. rewrite nthZ_upd by lia. destruct (N3 k Hk) as (A & B). destruct (Z.eqb_spec k i) as [->|N].
      * split; [intros _; rewrite (B Ni); reflexivity | intros X; exfalso; apply X; apply in_or_app; right; left; reflexivity].
      * split; intros X; [apply A | apply B; intro; apply X; apply in_or_app; left; assumption]. apply in_app_or in X. destruct X as [X|[X|[]]]; [exact X | congruence].
    + intros k Hk. rewrite nthZ_upd by lia. destruct (N4 k Hk) as (A & B). destruct (Z.eqb_spec k i) as [->|N].
      * split; [reflexivity | intros X; exfalso; apply X; apply in_or_app; right; left; reflexivity].
      * split; intros X; [apply A | apply B; intro; apply X; apply in_or_app; left; assumption]. apply in_app_or in X. destruct X as [X|[X|[]]]; [exact X | congruence].
Qed.

(** ** one direction *)
Definition first_label (a : axis) : Z := match a with AX => 11 | AY => 33 | AZ => 55 end.
Definition second_label (a : axis) : Z := match a with AX => 22 | AY => 44 | AZ => 66 end.
Definition pair2 (a : axis) (L : R) (pts : list pt) (name : list Z) (i j : Z) : Prop := match a with AX => facing a L pts name i j | _ => facing a L pts name j i end.
Definition disp (a : axis) (L : R) : R := match a with AX => L | _ => (- L)%R end.

Lemma labels_cases a l : l = first_label a \/ l = second_label a <-> l = low_label a \/ l = high_label a.
Proof. destruct a; cbn; tauto. Qed.
Lemma pair2_facing a L pts name i j : pair2 a L pts name i j \/ pair2 a L pts name j i <-> facing a L pts name i j \/ facing a L pts name j i.
Proof. destruct a; cbn; tauto. Qed.
Lemma pair2_labels a L pts name i j : pair2 a L pts name i j -> labelled name (first_label a) i /\ labelled name (second_label a) j.
Proof. destruct a; cbn; intros (A & B & C); split; assumption. Qed.
Lemma paired_first f32 a L pts name i : paired f32 a L pts name -> labelled name (first_label a) i -> exists j, pair2 a L pts name i j.
Proof. intros [H1 H2 _]. destruct a; cbn; intros H; [apply H1 | apply H2 | apply H2]; exact H. Qed.
Lemma paired_second f32 a L pts name j : paired f32 a L pts name -> labelled name (second_label a) j -> exists i, pair2 a L pts name i j.
Proof. intros [H1 H2 _]. destruct a; cbn; intros H; [apply H2 | apply H1 | apply H1]; exact H. Qed.
Lemma pair2_keys f32 b a L pts name i j : pair2 a L pts name i j -> f32 0%R = 0%R -> f32 L = L ->
  key_moved f32 b a (disp a L) (nthZ vzero pts i) = key_of f32 (nthZ vzero pts j) /\ key_moved f32 b a (- disp a L) (nthZ vzero pts j) = key_of f32 (nthZ vzero pts i).
Proof.
  intros H Z0 ZL. destruct a; cbn [pair2 disp] in *; destruct H as (_ & _ & H); destruct (across_keys f32 b _ L _ _ H Z0 ZL) as (A & B); rewrite ?Ropp_involutive; auto.
Qed.
Lemma key_same f32 p q : key_of f32 p = key_of f32 q -> same_rounded f32 p q.
Proof. unfold key_of, same_rounded. intros E. injection E as E1 E2 E3. auto. Qed.
Lemma where_NoDup name v : NoDup (where_eq name v).
Proof. unfold where_eq. apply NoDup_filter. apply NoDup_range. Qed.
Lemma distinct_key f32 a L pts name l i j : paired f32 a L pts name -> l = first_label a \/ l = second_label a -> labelled name l i -> labelled name l j ->
  key_of f32 (nthZ vzero pts i) = key_of f32 (nthZ vzero pts j) -> i = j.
Proof. intros P Hl Hi Hj E. apply (pr_distinct _ _ _ _ _ P l); [apply labels_cases; exact Hl | exact Hi | exact Hj | apply key_same; exact E]. Qed.

Definition after_faces (a : axis) (L : R) (I : pinput) (n nf : Z) (name : list Z) (s s1 s2 : pstate) : Prop :=
  exists cp1 cp2, faces_done I n nf a (-1 * L) cp1 s (where_eq name (first_label a)) s1 /\ faces_done I n nf a L cp2 s1 (where_eq name (second_label a)) s2 /\
    (forall f f', pair2 a L (pi_fcenter I) name f f' -> cp1 f = c0 s f' /\ cp2 f' = c0 s f).

Lemma direction_ok f32 I a L jloop name nodename n nf nn s :
  periodic_axis f32 I name nodename a L ->
  0 <= n -> nf = zlen name -> zlen (pi_fcenter I) = nf -> zlen (pi_cellnid I) = n -> (forall c, 0 <= c < n -> row_ok n (nthZ [] (pi_cellnid I) c)) ->
  nn = zlen nodename -> zlen (pi_vertex I) = nn -> zlen (pi_nodecell I) = nn ->
  (forall i, 0 <= i < nn -> row_ok n (nthZ [] (pi_nodecell I) i) /\ 0 < row_count (nthZ [] (pi_nodecell I) i)) ->
  (forall i j, 0 <= i < nn -> 0 <= j < nn -> zlen (nthZ [] (pi_nodecell I) i) = zlen (nthZ [] (pi_nodecell I) j)) ->
  sized n nf s -> (forall f, 0 <= f < nf -> zlen (nthZ [] (ps_cellid s) f) = 2 /\ 0 <= c0 s f < n) -> zlen (ps_node s) = nn -> zlen (ps_ghost s) = nn ->
  exists s1 s2 s' ls1 ls2 s3, 
    direction f32 I a jloop (where_eq name (first_label a)) (where_eq name (second_label a)) (where_eq nodename (first_label a)) (where_eq nodename (second_label a)) s = Ok s' /\
    after_faces a L I n nf name s s1 s2 /\
    nodes_done nn s2 (where_eq nodename (first_label a)) ls1 s3 /\ nodes_done nn s3 (where_eq nodename (second_label a)) ls2 s' /\
    (forall i j, pair2 a L (pi_vertex I) nodename i j -> ls2 j = counted (nthZ [] (pi_nodecell I) i) /\
       (jloop = true -> ls1 i = counted (nthZ [] (pi_nodecell I) j)) /\ (jloop = false -> exists k, 0 <= k /\ ls1 i = [nthZ 0 (nthZ [] (pi_nodecell I) j) k] /\ k < zlen (nthZ [] (pi_nodecell I) j) - 1)).
Proof.
  intros PA Hn Hnf Hfc Hcn Hcr Hnn Hv Hnc Hnr Hw SZ HR Hnode Hghost.
  destruct PA as [PV PF PZ PL PP PN].
  assert (InF : forall l f, In f (where_eq name l) <-> labelled name l f) by (intros; apply In_where).
  assert (InN : forall l f, In f (where_eq nodename l) <-> labelled nodename l f) by (intros; apply In_where).
  assert (Fd : forall l, face_dict f32 I (ps_cellid s) (where_eq name l) = Ok (rev (map (fun i => (key_of f32 (nthZ vzero (pi_fcenter I) i), cell_of (ps_cellid s) i)) (where_eq name l)))).
  { intros l. apply face_dict_ok. intros i Hi. apply InF in Hi. destruct Hi as (Hi & _). rewrite Hfc, (sz_cellid _ _ _ SZ), <- Hnf in *. destruct (HR i Hi) as (E & _). lia. }
  unfold direction. rewrite !Fd. cbn [bind]. rewrite (max_coord_ok a L _ PV), (max_coord_ok a L _ PF). cbn [bind].
  set (dl := fun l => rev (map (fun i => (key_of f32 (nthZ vzero (pi_fcenter I) i), cell_of (ps_cellid s) i)) (where_eq name l))).
  set (ins := match a with AX => true | _ => false end). fold (disp a L).
  set (cp1 := fun f => match kget (dl (second_label a)) (key_moved f32 ins a (disp a L) (nthZ vzero (pi_fcenter I) f)) with Ok c => c | Err _ => 0 end).
  set (cp2 := fun f => match kget (dl (first_label a)) (key_moved f32 ins a (- disp a L) (nthZ vzero (pi_fcenter I) f)) with Ok c => c | Err _ => 0 end).
  assert (K1 : forall f f', pair2 a L (pi_fcenter I) name f f' -> kget (dl (second_label a)) (key_moved f32 ins a (disp a L) (nthZ vzero (pi_fcenter I) f)) = Ok (c0 s f')).
  { intros f f' HP. destruct (pair2_keys f32 ins _ _ _ _ _ _ HP PZ PL) as (E & _). rewrite E. unfold dl, c0. destruct (pair2_labels _ _ _ _ _ _ HP) as (Q1 & Q2).
    apply (kget_dict (fun i => key_of f32 (nthZ vzero (pi_fcenter I) i)) (fun i => cell_of (ps_cellid s) i)); [apply InF; exact Q2|].
    intros j Hj Ej. apply InF in Hj. eapply distinct_key; [exact PP | right; reflexivity | exact Hj | exact Q2 | exact Ej]. }
  assert (K2 : forall f f', pair2 a L (pi_fcenter I) name f f' -> kget (dl (first_label a)) (key_moved f32 ins a (- disp a L) (nthZ vzero (pi_fcenter I) f')) = Ok (c0 s f)).
  { intros f f' HP. destruct (pair2_keys f32 ins _ _ _ _ _ _ HP PZ PL) as (_ & E). rewrite E. unfold dl, c0. destruct (pair2_labels _ _ _ _ _ _ HP) as (Q1 & Q2).
    apply (kget_dict (fun i => key_of f32 (nthZ vzero (pi_fcenter I) i)) (fun i => cell_of (ps_cellid s) i)); [apply InF; exact Q1|].
    intros j Hj Ej. apply InF in Hj. eapply distinct_key; [exact PP | left; reflexivity | exact Hj | exact Q1 | exact Ej]. }
  destruct (per_faces_ok f32 I n nf (dl (second_label a)) ins a (disp a L) (-1 * L) cp1 Hcr Hcn Hfc (where_eq name (first_label a)) s SZ (where_NoDup _ _)) as (s1 & E1 & D1).
  { intros f Hf. apply InF in Hf. destruct (paired_first _ _ _ _ _ _ PP Hf) as (f' & HP). destruct (pair2_labels _ _ _ _ _ _ HP) as ((Q1 & _) & (Q2 & _)). rewrite <- Hnf in *. destruct (HR f Q1) as (R1 & R2). destruct (HR f' Q2) as (R3 & R4).
    unfold cp1. rewrite (K1 _ _ HP). auto. }
  fold (dl (second_label a)). rewrite E1. cbn [bind].
  assert (C0 : forall f, 0 <= f < nf -> c0 s1 f = c0 s f /\ zlen (nthZ [] (ps_cellid s1) f) = 2).
  { intros f Hf. destruct (fd_cellid _ _ _ _ _ _ _ _ _ D1 f Hf) as (A & B). unfold c0, cell_of. destruct (in_dec Z.eq_dec f (where_eq name (first_label a))) as [Y|Y]; [rewrite (A Y) | rewrite (B Y)]; split; try reflexivity. apply HR; exact Hf. }
  destruct (per_faces_ok f32 I n nf (dl (first_label a)) ins a (- disp a L) L cp2 Hcr Hcn Hfc (where_eq name (second_label a)) s1 (fd_sized _ _ _ _ _ _ _ _ _ D1) (where_NoDup _ _)) as (s2 & E2 & D2).
  { intros f' Hf. apply InF in Hf. destruct (paired_second _ _ _ _ _ _ PP Hf) as (f & HP). destruct (pair2_labels _ _ _ _ _ _ HP) as ((Q1 & _) & (Q2 & _)). rewrite <- Hnf in *. destruct (C0 f' Q2) as (C1 & C2). rewrite C1, C2. destruct (HR f Q1) as (R1 & R2). destruct (HR f' Q2) as (R3 & R4).
    unfold cp2. rewrite (K2 _ _ HP). auto. }
  fold (dl (first_label a)). rewrite E2. cbn [bind].
  assert (NDI : forall l, (forall i, In i (where_eq nodename l) -> 0 <= i < zlen (pi_vertex I) /\ 0 <= i < zlen (pi_nodecell I) /\ row_ok n (nthZ [] (pi_nodecell I) i))).
  { intros l i Hi. apply InN in Hi. destruct Hi as (Hi & _). rewrite Hv, Hnc, <- Hnn in *. destruct (Hnr i Hi) as (A & B). auto. }
  destruct (node_dict_ok f32 I n (where_eq nodename (first_label a)) (ps_j s2) (NDI _)) as (j1 & J1 & J2 & J3). rewrite J1. cbn [bind].
  assert (J4 : forall i i', pair2 a L (pi_vertex I) nodename i i' -> exists k, j1 = Some k /\ 0 <= k < zlen (nthZ [] (pi_nodecell I) i') - 1).
  { intros i i' HP. destruct (pair2_labels _ _ _ _ _ _ HP) as (Q1 & (Q2 & _)). rewrite <- Hnn in Q2. destruct (exists_last (l := where_eq nodename (first_label a))) as (l1 & x & Ex); [intros X; apply InN in Q1; rewrite X in Q1; destruct Q1|].
    assert (Hx : 0 <= x < nn) by (assert (Hx : In x (where_eq nodename (first_label a))) by (rewrite Ex; apply in_or_app; right; left; reflexivity); apply InN in Hx; destruct Hx as (Hx & _); lia).
    destruct (Hnr x Hx) as ((A1 & A2 & _) & A3). exists (row_count (nthZ [] (pi_nodecell I) x) - 1). split; [apply (J3 (fun i Hi => proj2 (Hnr i ltac:(apply InN in Hi; destruct Hi as (Hi & _); lia))) x l1 Ex)|].
    rewrite (Hw i' x Q2 Hx). lia. }
  set (vals := fun i => counted (nthZ [] (pi_nodecell I) i)).
  assert (Vne : forall i, 0 <= i < nn -> vals i <> []).
  { intros i Hi E. destruct (Hnr i Hi) as ((A1 & A2 & _) & A3). unfold vals, counted in E. apply (f_equal (@length Z)) in E. rewrite firstn_length in E. cbn in E. unfold zlen in A2. lia. }
  set (v2 := fun i => if jloop then vals i else [nthZ 0 (nthZ [] (pi_nodecell I) i) (match j1 with Some k => k | None => 0 end)]).
  set (dn := fun (v : Z -> list Z) l => flat_map (fun i => map (pair (key_of f32 (nthZ vzero (pi_vertex I) i))) (v i)) (where_eq nodename l)).
  assert (ER : exists j2, (if jloop then node_dict f32 I (where_eq nodename (second_label a)) j1 else do r <- node_dict_nojloop f32 I (where_eq nodename (second_label a)) j1; ret (r, j1)) = Ok (dn v2 (second_label a), j2)).
  { destruct jloop.
    - destruct (node_dict_ok f32 I n (where_eq nodename (second_label a)) j1 (NDI _)) as (j2 & J5 & _). exists j2. exact J5.
    - exists j1. rewrite node_dict_nojloop_ok; [reflexivity|]. intros i Hi. destruct (NDI _ i Hi) as (A & B & _). split; [exact A|]. split; [exact B|]. apply InN in Hi. destruct (paired_second _ _ _ _ _ _ PN Hi) as (i0 & HP). destruct (J4 _ _ HP) as (k & Ek & Hk). exists k. split; [exact Ek | lia]. }
  destruct ER as (j2 & ER). rewrite ER. cbn [bind].
  set (ls1 := fun i => match mget (dn v2 (second_label a)) (key_moved f32 false a (disp a L) (nthZ vzero (pi_vertex I) i)) with Ok c => c | Err _ => [] end).
  set (ls2 := fun i => match mget (dn vals (first_label a)) (key_moved f32 false a (- disp a L) (nthZ vzero (pi_vertex I) i)) with Ok c => c | Err _ => [] end).
  assert (M1 : forall i i', pair2 a L (pi_vertex I) nodename i i' -> mget (dn v2 (second_label a)) (key_moved f32 false a (disp a L) (nthZ vzero (pi_vertex I) i)) = Ok (v2 i')).
  { intros i i' HP. destruct (pair2_keys f32 false _ _ _ _ _ _ HP PZ PL) as (E & _). rewrite E. destruct (pair2_labels _ _ _ _ _ _ HP) as (Q1 & Q2). unfold dn.
    apply (mget_dict (fun i => key_of f32 (nthZ vzero (pi_vertex I) i)) v2); [apply InN; exact Q2 | apply where_NoDup | |].
    - intros j Hj Ej. apply InN in Hj. eapply distinct_key; [exact PN | right; reflexivity | exact Hj | exact Q2 | exact Ej].
    - unfold v2. destruct jloop; [apply Vne; destruct Q2; lia | discriminate]. }
  assert (M2 : forall i i', pair2 a L (pi_vertex I) nodename i i' -> mget (dn vals (first_label a)) (key_moved f32 false a (- disp a L) (nthZ vzero (pi_vertex I) i')) = Ok (vals i)).
  { intros i i' HP. destruct (pair2_keys f32 false _ _ _ _ _ _ HP PZ PL) as (_ & E). rewrite E. destruct (pair2_labels _ _ _ _ _ _ HP) as (Q1 & Q2). unfold dn.
    apply (mget_dict (fun i => key_of f32 (nthZ vzero (pi_vertex I) i)) vals); [apply InN; exact Q1 | apply where_NoDup | |].
    - intros j Hj Ej. apply InN in Hj. eapply distinct_key; [exact PN | left; reflexivity | exact Hj | exact Q1 | exact Ej].
    - apply Vne; destruct Q1; lia. }
  destruct (per_nodes_ok f32 I nn (dn v2 (second_label a)) a (disp a L) ls1 (where_eq nodename (first_label a)) (with_j s2 j2)) as (s3 & E3 & D3).
  { unfold with_j. cbn. rewrite (fd_node _ _ _ _ _ _ _ _ _ D2), (fd_node _ _ _ _ _ _ _ _ _ D1). exact Hnode. }
  { unfold with_j. cbn. rewrite (fd_ghost _ _ _ _ _ _ _ _ _ D2), (fd_ghost _ _ _ _ _ _ _ _ _ D1). exact Hghost. }
  { exact Hv. } { apply where_NoDup. }
  { intros i Hi. apply InN in Hi. destruct (paired_first _ _ _ _ _ _ PN Hi) as (i' & HP). split; [destruct Hi; lia|]. unfold ls1. rewrite (M1 _ _ HP). reflexivity. }
  rewrite E3. cbn [bind].
  destruct (per_nodes_ok f32 I nn (dn vals (first_label a)) a (- disp a L) ls2 (where_eq nodename (second_label a)) s3) as (s4 & E4 & D4).
  { apply (nd_len _ _ _ _ _ D3). } { apply (nd_len _ _ _ _ _ D3). } { exact Hv. } { apply where_NoDup. }
  { intros i Hi. apply InN in Hi. destruct (paired_second _ _ _ _ _ _ PN Hi) as (i' & HP). split; [destruct Hi; lia|]. unfold ls2. rewrite (M2 _ _ HP). reflexivity. }
  exists s1, s2, s4, ls1, ls2, s3. split; [exact E4|]. split; [|split; [|split; [exact D4|]]].
  - exists cp1, cp2. split; [exact D1|]. split; [exact D2|]. intros f f' HP. unfold cp1, cp2. rewrite (K1 _ _ HP), (K2 _ _ HP). auto.
  - destruct D3 as [A B C D]. split; [exact A | exact B | exact C | exact D].
  - intros i j HP. split; [unfold ls2; rewrite (M2 _ _ HP); reflexivity|]. split; intros EJ.
    + unfold ls1. rewrite (M1 _ _ HP). unfold v2. rewrite EJ. reflexivity.
    + destruct (J4 _ _ HP) as (k & Ek & Hk). exists k. split; [lia|]. split; [|lia]. unfold ls1. rewrite (M1 _ _ HP). unfold v2. rewrite EJ, Ek. reflexivity.
Qed.
