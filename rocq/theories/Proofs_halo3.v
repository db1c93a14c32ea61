(** * Proofs_halo3: ghost centres, and the whole halo structure *)
From Verif Require Import Py PyLemmas Scatter Model_part Model_label Model_conn Spec_conn Proofs_conn1 Proofs_conn2 Proofs_conn3 Model_geom Spec_geom Proofs_geom1 Proofs_geom2 Proofs_geom3 Model_halo Spec_halo Proofs_halo1 Proofs_halo2.
From Coq Require Import Permutation Sorting.Sorted ZifyBool Lra.
Open Scope Z_scope.

Lemma rdiv_ok a b : b <> 0%R -> rdiv a b = Ok (a / b)%R.
Proof. intros H. unfold rdiv. destruct (Req_EM_T b 0); [contradiction | reflexivity]. Qed.

Lemma sq_sum0 a b : (a ^ 2 + b ^ 2 = 0 -> a = 0 /\ b = 0)%R.
Proof. intros H. pose proof (Rle_0_sqr a) as Ha. pose proof (Rle_0_sqr b) as Hb. unfold Rsqr in *. split; apply Rsqr_0_uniq; unfold Rsqr; lra. Qed.

(** appending the same entry at the nodes of a list without repetition *)
Lemma append_all {A} (e : A) F : forall s, NoDup F -> (forall k, In k F -> 0 <= k < zlen s) ->
  exists s', foldM (fun s k => append_at s k e) F s = Ok s' /\ zlen s' = zlen s /\
   forall k, 0 <= k < zlen s -> nthZ [] s' k = nthZ [] s k ++ (if mem k F then [e] else []).
Proof.
  induction F as [|a F IH]; intros s HND HR; cbn [foldM].
  - exists s. split; [reflexivity|]. split; [reflexivity|]. intros k Hk. cbn. rewrite app_nil_r. reflexivity.
  - apply NoDup_cons_iff in HND as (Ha & HND). pose proof (HR a (or_introl eq_refl)) as Hra. rewrite append_at_upd by exact Hra. cbn [bind].
    destruct (IH (upd s a (nthZ [] s a ++ [e])) HND) as (s' & E & HL & HV); [intros k Hk; rewrite zlen_upd; apply HR; right; exact Hk|].
    rewrite zlen_upd in HL, HV. exists s'. split; [exact E|]. split; [exact HL|]. intros k Hk. rewrite HV by exact Hk. rewrite nthZ_upd by lia.
    cbn [mem existsb]. fold (mem k F). destruct (Z.eqb_spec k a) as [->|Hne]; cbn [orb].
    + apply mem_not_In in Ha. rewrite Ha, app_nil_r. reflexivity.
    + reflexivity.
Qed.

Section Ghost.
Context (dim : Z) (vertex : list pt) (namen : list Z) (nodeid : list (list Z)).
Hypothesis WF : wf_mesh dim (zlen vertex) nodeid.
Context (cn : conn).
Hypothesis Hcn : build_faces dim (ocells dim vertex nodeid) = Ok cn.
Hypothesis NFL : forall k, iscell nodeid k -> nonflat dim vertex (cell nodeid k).
Notation FG := (facegeo_of dim vertex namen nodeid cn).
Notation Fn f := (nthZ [] (cn_faces cn) f).
Notation cc := (centerc dim vertex nodeid).
Let n := zlen (cn_faces cn).
Context (Fo : list (list Z)) (cid : list (list Z)) (nm : list Z).
Hypothesis LFo : zlen Fo = n.
Hypothesis PFo : forall f, 0 <= f < n -> Permutation (nthZ [] Fo f) (Fn f).
Hypothesis Lcid : zlen cid = n.
Hypothesis Hcid : forall f, 0 <= f < n -> 1 <= zlen (nthZ [] cid f) /\ nthZ 0 (nthZ [] cid f) 0 = cleft cn f.
Hypothesis Lnm : zlen nm = n.

Lemma left_cell f : 0 <= f < n -> iscell nodeid (cleft cn f).
Proof. intros Hf. apply (cellid_row dim vertex nodeid WF cn Hcn f Hf). Qed.
Lemma Fo_row f : 0 <= f < n -> zlen (nthZ [] Fo f) = dim /\ NoDup (nthZ [] Fo f) /\ forall k, In k (nthZ [] Fo f) -> 0 <= k < zlen vertex.
Proof.
  intros Hf. destruct (face_row dim vertex nodeid WF cn Hcn f Hf) as (HL & HS & HR). pose proof (PFo f Hf) as P.
  split; [unfold zlen in *; rewrite (Permutation_length P); exact HL|]. split; [eapply Permutation_NoDup; [symmetry; exact P | apply sorted_lt_NoDup; exact HS]|].
  intros k Hk. apply HR. eapply Permutation_in; eauto.
Qed.
Lemma normal_nonzero f : 0 <= f < n -> (0 < vdot (fg_normal (FG f)) (fg_normal (FG f)))%R.
Proof.
  intros Hf. pose proof (left_strict dim vertex namen nodeid WF cn Hcn f Hf (NFL _ (left_cell f Hf))) as H.
  set (m := fg_normal (FG f)) in *. set (s := vsub _ _) in H. unfold vdot in *. destruct (Req_dec (px m) 0), (Req_dec (py m) 0), (Req_dec (pz m) 0); try nra.
Qed.
Lemma normal_orth_o f x y : 0 <= f < n -> In x (nthZ [] Fo f) -> In y (nthZ [] Fo f) -> vdot (fg_normal (FG f)) (vsub (V vertex x) (V vertex y)) = 0%R.
Proof. intros Hf Hx Hy. apply (normal_orth dim vertex namen nodeid WF cn Hcn f x y Hf); (eapply Permutation_in; [apply PFo; exact Hf | assumption]). Qed.

Definition ghost_of (f : Z) : res ghostc := if dim =? 2 then ghost2 (nthZ [] Fo f) vertex (cc (cleft cn f)) else ghost3 (FG f) (cc (cleft cn f)).
Lemma ghost_of_ok f : 0 <= f < n -> exists g, ghost_of f = Ok g /\ mirror vertex (nthZ [] Fo f) (cc (cleft cn f)) (gc_pt g).
Proof.
  intros Hf. unfold ghost_of. pose proof (normal_nonzero f Hf) as Hnz. destruct (Fo_row f Hf) as (HL & HND & HR).
  pose proof (fun x y => normal_orth_o f x y Hf) as Hor. pose proof (PFo f Hf) as P.
  pose proof (normal_cases dim vertex namen nodeid WF cn Hcn f Hf) as (Hn & _). cbv zeta in Hn.
  assert (Hc2 : dim = 2 -> pz (cc (cleft cn f)) = 0%R) by (intros ->; reflexivity).
  destruct (mesure_len dim vertex namen nodeid WF cn Hcn f Hf) as (EM & _). change (fg_center (FG f)) with (mid vertex (Fn f)) in *.
  destruct (face_row dim vertex nodeid WF cn Hcn f Hf) as (HLn & _ & _).
  assert (EC : fg_center (FG f) = mid vertex (Fn f)) by reflexivity.
  set (fg := FG f) in *. clearbody fg. set (m := fg_normal fg) in *.
  set (v := cc (cleft cn f)) in *. set (F := nthZ [] Fo f) in *.
  destruct (wm_dim _ _ _ WF) as [Ed|Ed]; rewrite Ed in *; cbn [Z.eqb Pos.eqb].
  - destruct (list2 F HL) as (a & b & EF). rewrite EF in *. unfold ghost2. change (get [a; b] 1) with (Ok b). change (get [a; b] 0) with (Ok a). cbn [bind].
    rewrite !(get_nthZ vzero) by (apply HR; cbn; auto). cbn [bind].
    change (nthZ vzero vertex a) with (V vertex a). change (nthZ vzero vertex b) with (V vertex b).
    assert (Hab : ((px (V vertex b) - px (V vertex a)) ^ 2 + (py (V vertex b) - py (V vertex a)) ^ 2 <> 0)%R).
    { assert (HP : Fn f = [a; b] \/ Fn f = [b; a]). { apply Permutation_length_2_inv in P as [E|E]; auto. }
      intros E0. assert (px (V vertex b) = px (V vertex a) /\ py (V vertex b) = py (V vertex a)) as (X1 & X2) by (destruct (sq_sum0 _ _ E0); split; lra).
      assert (vdot m m = 0)%R; [|lra].
      destruct Hn as [-> | ->]; destruct HP as [-> | ->]; unfold raw_normal; cbn [map]; unfold vdot, pscal; cbn [px py pz]; rewrite X1, X2; ring. }
    rewrite rdiv_ok by exact Hab. cbn [bind]. eexists. split; [reflexivity|]. specialize (Hc2 eq_refl). clearbody v.
    set (A := V vertex a) in *. set (B := V vertex b) in *. split.
    + unfold side. cbn [map]. fold A B. cbn [gc_pt]. unfold turn, vscal, vadd. cbn [px py]. field. exact Hab.
    + assert (E : vdot (vsub (P3 (2 * (((px v - px A) * (px B - px A) + (py v - py A) * (py B - py A)) / ((px B - px A) ^ 2 + (py B - py A) ^ 2) * px B +
            (1 - ((px v - px A) * (px B - px A) + (py v - py A) * (py B - py A)) / ((px B - px A) ^ 2 + (py B - py A) ^ 2)) * px A) + -1 * px v)
          (2 * (((px v - px A) * (px B - px A) + (py v - py A) * (py B - py A)) / ((px B - px A) ^ 2 + (py B - py A) ^ 2) * py B +
            (1 - ((px v - px A) * (px B - px A) + (py v - py A) * (py B - py A)) / ((px B - px A) ^ 2 + (py B - py A) ^ 2)) * py A) + -1 * py v) 0) v) (vsub B A) = 0%R).
      { unfold vdot, vsub. cbn [px py pz]. rewrite Hc2. field. exact Hab. }
      cbn [gc_pt] in *. intros x y Hx Hy. cbn in Hx, Hy.
      assert (OP : forall u w z, vdot u (vsub w z) = (- vdot u (vsub z w))%R) by (intros; unfold vdot, vsub; cbn [px py pz]; ring).
      assert (ZZ : forall u w, vdot u (vsub w w) = 0%R) by (intros; unfold vdot, vsub; cbn [px py pz]; ring).
      destruct Hx as [<-|[<-|[]]]; destruct Hy as [<-|[<-|[]]]; fold A B; first [apply ZZ | exact E | rewrite OP, E; ring].
  - assert (HM : (0 < fg_mesure fg)%R) by (rewrite EM; apply sqrt_lt_R0; exact Hnz).
    assert (HM2 : (fg_mesure fg * fg_mesure fg = vdot m m)%R) by (rewrite EM; apply sqrt_sqrt; fold m; lra).
    unfold ghost3. rewrite !rdiv_ok by lra. cbn [bind]. eexists. split; [reflexivity|]. cbn [gc_pt]. clear Hc2.
    rewrite EC. fold m. set (M := fg_mesure fg) in *. clearbody M.
    set (nn := P3 (px m / M) (py m / M) (pz m / M)).
    assert (Hnn : vdot nn nn = 1%R). { unfold nn, vdot; cbn [px py pz]. unfold vdot in HM2. transitivity ((px m * px m + py m * py m + pz m * pz m) / (M * M))%R; [field; lra|]. rewrite <- HM2. field. lra. }
    assert (Hnm : forall w, vdot nn w = (vdot m w / M)%R) by (intros w; unfold nn, vdot; cbn [px py pz]; field; lra).
    set (gam := pdot (psub (mid vertex (Fn f)) v) nn). clearbody v.
    assert (Eg : padd (pscal 2 (padd v (pscal gam nn))) (pscal (-1) v) = vadd v (vscal (2 * gam) nn)) by (unfold padd, pscal, vadd, vscal; cbn [px py pz]; f_equal; ring).
    rewrite Eg. split.
    + assert (Em : vscal (1/2) (vadd v (vadd v (vscal (2 * gam) nn))) = vadd v (vscal gam nn)) by (unfold vadd, vscal; cbn [px py pz]; f_equal; field).
      rewrite Em. destruct (list3 F HL) as (a & b & c & EF). rewrite EF in *.
      destruct (list3 _ HLn) as (a' & b' & c' & EFn). rewrite EFn in *.
      (* the centre is in the plane *)
      assert (Hcen : forall p, In p [a'; b'; c'] -> vdot m (vsub (mid vertex [a'; b'; c']) (V vertex p)) = 0%R).
      { assert (Hor' : forall x y, In x [a'; b'; c'] -> In y [a'; b'; c'] -> vdot m (vsub (V vertex x) (V vertex y)) = 0%R) by (intros x y Hx Hy; apply Hor; (eapply Permutation_in; [symmetry; exact P | assumption])).
        intros p Hp. pose proof (Hor' a' p ltac:(cbn; auto) Hp) as E1. pose proof (Hor' b' p ltac:(cbn; auto) Hp) as E2. pose proof (Hor' c' p ltac:(cbn; auto) Hp) as E3.
        unfold mid. cbn [map]. unfold pscal, padd. unfold vdot, vsub in *. cbn [px py pz] in *. lra. }
      assert (Hpl : vdot m (vsub (vadd v (vscal gam nn)) (V vertex a)) = 0%R).
      { assert (Ha : In a [a'; b'; c']) by (eapply Permutation_in; [exact P | cbn; auto]).
        transitivity (M * vdot nn (vsub (vadd v (vscal gam nn)) (V vertex a)))%R; [rewrite Hnm; field; lra|].
        assert (E1 : vdot nn (vsub (vadd v (vscal gam nn)) (V vertex a)) = (vdot nn (vsub (mid vertex (Fn f)) (V vertex a)) - gam + gam * vdot nn nn)%R)
          by (unfold gam, pdot, psub, vdot, vsub, vadd, vscal; cbn [px py pz]; ring).
        rewrite E1, EFn, Hnn, Hnm, (Hcen a Ha). field. lra. }
      unfold side. cbn [map].
      assert (HX : m = raw_normal vertex [a; b; c] \/ m = pscal (-1) (raw_normal vertex [a; b; c])).
      { destruct (raw_perm vertex _ _ P) as [E|E]; rewrite E; destruct Hn as [Hn|Hn]; rewrite Hn; [left; reflexivity | right; reflexivity | right | left]; unfold pscal; cbn [px py pz]; destruct (raw_normal vertex [a'; b'; c']) as [x1 x2 x3]; cbn [px py pz]; f_equal; ring. }
      unfold raw_normal in HX. cbn [map] in HX.
      set (w := vadd v (vscal gam nn)) in *. clearbody w. set (A := V vertex a) in *. set (B := V vertex b) in *. set (C := V vertex c) in *.
      unfold det4, det. unfold vdot in Hpl. destruct HX as [HX|HX]; rewrite HX in Hpl; unfold pscal, pcross, psub, vsub in Hpl |- *; cbn [px py pz] in Hpl |- *; lra.
    + intros x y Hx Hy. assert (E1 : vdot (vsub (vadd v (vscal (2 * gam) nn)) v) (vsub (at_node vertex x) (at_node vertex y)) = (2 * gam * vdot nn (vsub (V vertex x) (V vertex y)))%R) by (unfold vdot, vsub, vadd, vscal; cbn [px py pz]; ring).
      rewrite E1, Hnm, (Hor x y Hx Hy). field. lra.
Qed.
Definition gh (f : Z) : ghostc := match ghost_of f with Ok g => g | Err _ => gc0 end.
Definition entry (f : Z) : nodeghost := {| ng_pt := gc_pt (gh f); ng_cell := cleft cn f; ng_name := nthZ 0 nm f; ng_face := f; ng_fcenter := fg_center (FG f); ng_fnormal := fg_normal (FG f) |}.
Definition hg (f : Z) : bool := has_ghost dim (nthZ 0 nm f).

Lemma ghost_centers_ok : exists G N,
  ghost_centers dim Fo cid nm (map FG (range n)) vertex (map cg_center (map (cellgeo_of dim vertex) nodeid)) = Ok (G, N) /\ zlen G = n /\ zlen N = zlen vertex /\
  (forall f, 0 <= f < n -> hg f = true -> nthZ gc0 G f = gh f) /\
  (forall k, 0 <= k < zlen vertex -> nthZ [] N k = map entry (filter (fun f => hg f && mem k (nthZ [] Fo f)) (range n))).
Proof.
  unfold ghost_centers. rewrite LFo.
  destruct (foldM_range_inv (fun m (s : list ghostc * list (list nodeghost)) => zlen (fst s) = n /\ zlen (snd s) = zlen vertex /\
      (forall f, 0 <= f < m -> hg f = true -> nthZ gc0 (fst s) f = gh f) /\
      (forall k, 0 <= k < zlen vertex -> nthZ [] (snd s) k = map entry (filter (fun f => hg f && mem k (nthZ [] Fo f)) (range m))))
    (ghost_face dim Fo cid nm (map FG (range n)) vertex (map cg_center (map (cellgeo_of dim vertex) nodeid))) n (zeros_like gc0 n, zeros_like [] (zlen vertex))) as (s & E & H).
  - apply zlen_nonneg.
  - cbn [fst snd]. split; [apply zlen_zeros_like, zlen_nonneg|]. split; [apply zlen_zeros_like, zlen_nonneg|]. split; [intros; lia|]. intros k Hk. rewrite nthZ_zeros_like by exact Hk. reflexivity.
  - intros f [G N] Hf (L1 & L2 & HG & HNn). cbn [fst snd] in *. unfold ghost_face. cbn [fst snd]. rewrite (get_nthZ 0) by lia. cbn [bind]. fold (hg f).
    assert (HG' : forall G', zlen G' = zlen G -> (forall f', 0 <= f' < f -> nthZ gc0 G' f' = nthZ gc0 G f') -> (hg f = true -> nthZ gc0 G' f = gh f) -> forall f', 0 <= f' < f + 1 -> hg f' = true -> nthZ gc0 G' f' = gh f').
    { intros G' _ A B f' Hf' Hh. destruct (Z.eq_dec f' f) as [->|Hne]; [apply B; exact Hh|]. rewrite A by lia. apply HG; [lia | exact Hh]. }
    rewrite range_succ by lia. destruct (hg f) eqn:Eh.
    + rewrite (get_nthZ []) by lia. cbn [bind]. rewrite get_map_range by exact Hf. cbn [bind]. destruct (Hcid f Hf) as (Hl & Hc0). rewrite (get2_nthZ 0) by lia. rewrite Hc0. cbn [bind].
      rewrite map_map. rewrite (get_nthZ p0) by (rewrite zlen_map; apply (left_cell f Hf)). rewrite (nthZ_map _ []) by (apply (left_cell f Hf)). cbn [bind].
      change (cg_center (cellgeo_of dim vertex (nthZ [] nodeid (cleft cn f)))) with (cc (cleft cn f)).
      destruct (ghost_of_ok f Hf) as (g & Eg & _). unfold ghost_of in Eg. rewrite Eg. cbn [bind]. assert (Egh : gh f = g) by (unfold gh, ghost_of; rewrite Eg; reflexivity).
      rewrite set_upd by lia. cbn [bind].
      change {| ng_pt := gc_pt g; ng_cell := cleft cn f; ng_name := nthZ 0 nm f; ng_face := f; ng_fcenter := fg_center (FG f); ng_fnormal := fg_normal (FG f) |} with
        {| ng_pt := gc_pt g; ng_cell := cleft cn f; ng_name := nthZ 0 nm f; ng_face := f; ng_fcenter := fg_center (FG f); ng_fnormal := fg_normal (FG f) |}.
      assert (Een : {| ng_pt := gc_pt g; ng_cell := cleft cn f; ng_name := nthZ 0 nm f; ng_face := f; ng_fcenter := fg_center (FG f); ng_fnormal := fg_normal (FG f) |} = entry f) by (unfold entry; rewrite Egh; reflexivity).
      rewrite Een. destruct (Fo_row f Hf) as (HL & HND & HR).
      assert (AA : exists N', (do nod1 <- get (nthZ [] Fo f) 1; do nod2 <- get (nthZ [] Fo f) 0; do ngs <- append_at N nod1 (entry f); do ngs <- append_at ngs nod2 (entry f);
          do ngs <- (if dim =? 2 then ret ngs else do nod3 <- get (nthZ [] Fo f) 2; append_at ngs nod3 (entry f)); ret (upd G f g, ngs)) = Ok (upd G f g, N') /\ zlen N' = zlen N /\
          forall k, 0 <= k < zlen N -> nthZ [] N' k = nthZ [] N k ++ (if mem k (nthZ [] Fo f) then [entry f] else [])).
      { destruct (wm_dim _ _ _ WF) as [Ed|Ed]; rewrite Ed in *; cbn [Z.eqb Pos.eqb].
        - destruct (list2 _ HL) as (a & b & EF). rewrite EF in *. change (get [a; b] 1) with (Ok b). change (get [a; b] 0) with (Ok a). cbn [bind].
          destruct (append_all (entry f) [b; a] N) as (N' & EN & HLN & HV).
          + eapply Permutation_NoDup; [apply perm_swap | exact HND].
          + intros k Hk. rewrite L2. apply HR. cbn in Hk |- *. tauto.
          + exists N'. cbn [foldM] in EN. destruct (append_at N b (entry f)) as [N1|]; [|discriminate]. cbn [bind] in EN |- *. destruct (append_at N1 a (entry f)) as [N2|]; [|discriminate]. cbn [bind] in EN |- *. injection EN as <-.
            split; [reflexivity|]. split; [exact HLN|]. intros k Hk. rewrite HV by exact Hk. rewrite (mem_perm k [b; a] [a; b]) by apply perm_swap. reflexivity.
        - destruct (list3 _ HL) as (a & b & c & EF). rewrite EF in *. change (get [a; b; c] 1) with (Ok b). change (get [a; b; c] 0) with (Ok a). change (get [a; b; c] 2) with (Ok c). cbn [bind].
          destruct (append_all (entry f) [b; a; c] N) as (N' & EN & HLN & HV).
          + eapply Permutation_NoDup; [apply perm_swap | exact HND].
          + intros k Hk. rewrite L2. apply HR. cbn in Hk |- *. tauto.
          + exists N'. cbn [foldM] in EN. destruct (append_at N b (entry f)) as [N1|]; [|discriminate]. cbn [bind] in EN |- *. destruct (append_at N1 a (entry f)) as [N2|]; [|discriminate]. cbn [bind] in EN |- *.
            destruct (append_at N2 c (entry f)) as [N3|]; [|discriminate]. cbn [bind] in EN |- *. injection EN as <-.
            split; [reflexivity|]. split; [exact HLN|]. intros k Hk. rewrite HV by exact Hk. rewrite (mem_perm k [b; a; c] [a; b; c]) by apply perm_swap. reflexivity. }
      destruct AA as (N' & EA & HLN & HV). rewrite EA. eexists; split; [reflexivity|]. cbn [fst snd]. rewrite zlen_upd. split; [exact L1|]. split; [lia|]. split.
      * apply HG'; [apply zlen_upd | intros f' Hf'; rewrite nthZ_upd by lia; replace (f' =? f) with false by lia; reflexivity | intros _; rewrite nthZ_upd_eq by lia; symmetry; exact Egh].
      * intros k Hk. rewrite HV by lia. rewrite HNn by exact Hk. rewrite filter_app, map_app. f_equal. cbn [filter]. rewrite Eh. cbn [andb]. destruct (mem k (nthZ [] Fo f)); reflexivity.
    + rewrite set_upd by lia. cbn [bind]. eexists; split; [reflexivity|]. cbn [fst snd]. rewrite zlen_upd. split; [exact L1|]. split; [exact L2|]. split.
      * apply HG'; [apply zlen_upd | intros f' Hf'; rewrite nthZ_upd by lia; replace (f' =? f) with false by lia; reflexivity | discriminate].
      * intros k Hk. rewrite HNn by exact Hk. rewrite filter_app, map_app. cbn [filter]. rewrite Eh. cbn [andb map]. rewrite app_nil_r. reflexivity.
  - destruct s as [G N]. cbn [fst snd] in H. exists G, N. tauto.
Qed.
End Ghost.

Section Whole.
Context (dim : Z) (vertex : list pt) (namen : list Z) (nodeid : list (list Z)).
Hypothesis WF : wf_mesh dim (zlen vertex) nodeid.
Hypothesis HN : zlen namen = zlen vertex.
Hypothesis NFL : forall k, iscell nodeid k -> nonflat dim vertex (cell nodeid k).
Context (g : geometry).
Hypothesis Hg : build_geometry dim nodeid vertex namen = Ok g.
Let Fo := ge_facenodes g.
Let n := zlen Fo.
Let nbn := zlen vertex.

Lemma geometry_facts : exists cn, build_faces dim (ocells dim vertex nodeid) = Ok cn /\ ge_conn g = cn /\ ge_cells g = map (cellgeo_of dim vertex) nodeid /\
  ge_faces g = map (facegeo_of dim vertex namen nodeid cn) (range n) /\ zlen Fo = zlen (cn_faces cn) /\
  (forall f, 0 <= f < n -> Permutation (nthZ [] Fo f) (nthZ [] (cn_faces cn) f)).
Proof.
  destruct (build_geometry_ok dim vertex namen nodeid WF HN) as (cn & g' & E & Hcn & E1 & E2 & E3 & _ & E4 & E5). rewrite Hg in E. injection E as <-. exists cn.
  assert (P : zlen Fo = zlen (cn_faces cn) /\ forall f, 0 <= f < n -> Permutation (nthZ [] Fo f) (nthZ [] (cn_faces cn) f)).
  { unfold n. destruct (wm_dim _ _ _ WF) as [Ed|Ed].
    - unfold Fo. rewrite (E5 Ed). auto.
    - unfold Fo. rewrite (E4 Ed). assert (HL : zlen (map (oriented dim vertex namen nodeid cn) (range (zlen (cn_faces cn)))) = zlen (cn_faces cn)) by (rewrite zlen_map, zlen_range by apply zlen_nonneg; reflexivity).
      rewrite HL. split; [reflexivity|]. intros f Hf. rewrite (nthZ_map _ 0) by (rewrite zlen_range; lia). rewrite nthZ_range by exact Hf. unfold oriented.
      destruct (nthZ [] (cn_faces cn) f) as [|a [|b [|c [|]]]]; try reflexivity. destruct (Rlt_dec _ _); [apply perm_skip, perm_swap | reflexivity]. }
  destruct P as (P1 & P2). unfold n in *. rewrite P1 in *. split; [exact Hcn|]. split; [exact E1|]. split; [exact E2|]. split; [exact E3|]. split; [reflexivity | exact P2].
Qed.

Lemma ghost_part s : st_ok n nbn s -> (forall f, 0 <= f < n -> nthZ 0 (nthZ [] (hs_cellid s) f) 0 = nthZ 0 (nthZ [] (cn_cellid (ge_conn g)) f) 0) ->
  exists G N, ghost_centers dim (ge_facenodes g) (hs_cellid s) (hs_name s) (ge_faces g) vertex (map cg_center (ge_cells g)) = Ok (G, N) /\
  zlen G = n /\ zlen N = nbn /\
  (forall f, 0 <= f < n -> has_ghost dim (nthZ 0 (hs_name s) f) = true ->
     mirror vertex (nthZ [] Fo f) (cg_center (nthZ (cg0 []) (ge_cells g) (nthZ 0 (nthZ [] (hs_cellid s) f) 0))) (gc_pt (nthZ gc0 G f))) /\
  (forall k, 0 <= k < nbn ->
     map ng_face (nthZ [] N k) = filter (fun f => has_ghost dim (nthZ 0 (hs_name s) f) && mem k (nthZ [] Fo f)) (range n) /\
     forall e, In e (nthZ [] N k) -> let f := ng_face e in
       ng_pt e = gc_pt (nthZ gc0 G f) /\ ng_cell e = nthZ 0 (nthZ [] (hs_cellid s) f) 0 /\ ng_name e = nthZ 0 (hs_name s) f /\
       ng_fcenter e = fg_center (nthZ fg0 (ge_faces g) f) /\ ng_fnormal e = fg_normal (nthZ fg0 (ge_faces g) f)).
Proof.
  intros (L1 & L2 & _ & _ & L3) Hc. destruct geometry_facts as (cn & Hcn & <- & Ec & Ef & EL & HP). set (cn := ge_conn g) in *.
  assert (Hc' : forall f, 0 <= f < zlen (cn_faces cn) -> 1 <= zlen (nthZ [] (hs_cellid s) f) /\ nthZ 0 (nthZ [] (hs_cellid s) f) 0 = cleft cn f).
  { intros f Hf. rewrite <- EL in Hf. split; [rewrite L3 by exact Hf; lia | apply Hc; exact Hf]. }
  assert (HP' : forall f, 0 <= f < zlen (cn_faces cn) -> Permutation (nthZ [] Fo f) (nthZ [] (cn_faces cn) f)) by (intros; apply HP; unfold n; lia).
  destruct (ghost_centers_ok dim vertex namen nodeid WF cn Hcn NFL Fo (hs_cellid s) (hs_name s) EL HP' (eq_trans L1 EL) Hc' (eq_trans L2 EL)) as (G & N & E & LG & LN & HG & HNn).
  assert (EL' : zlen (cn_faces cn) = n) by (symmetry; exact EL). rewrite EL' in E, LG, HG, HNn, Hc', HP'. exists G, N. rewrite Ef, Ec. split; [exact E|]. split; [exact LG|]. split; [exact LN|]. split.
  - intros f Hf Hh. rewrite (HG f Hf Hh).
    destruct (ghost_of_ok dim vertex namen nodeid WF cn Hcn NFL Fo ltac:(rewrite EL'; exact HP') f ltac:(lia)) as (gg & Eg & Hm). unfold gh. rewrite Eg.
    rewrite (proj2 (Hc' f Hf)). assert (Hleft := left_cell dim vertex nodeid WF cn Hcn f ltac:(lia)). rewrite (nthZ_map _ []) by exact Hleft. exact Hm.
  - intros k Hk. rewrite (HNn k Hk). split; [rewrite map_map; apply map_id|]. intros e He. apply in_map_iff in He as (f & <- & Hf). apply filter_In in Hf as (Hf & Hh). apply in_range in Hf. apply andb_true_iff in Hh as (Hh & _).
    cbn [entry ng_face ng_pt ng_cell ng_name ng_fcenter ng_fnormal]. rewrite (HG f Hf Hh), (proj2 (Hc' f Hf)). rewrite (nthZ_map _ 0) by (rewrite zlen_range; lia). rewrite nthZ_range by exact Hf. auto.
Qed.

Lemma Fo_facts : forall f, 0 <= f < n -> zlen (nthZ [] Fo f) = dim /\ NoDup (nthZ [] Fo f) /\ forall k, In k (nthZ [] Fo f) -> 0 <= k < nbn.
Proof.
  intros f Hf. destruct geometry_facts as (cn & Hcn & <- & Ec & Ef & EL & HP).
  apply (Fo_row dim vertex nodeid WF _ Hcn Fo); [intros; apply HP; unfold n; lia | unfold n in Hf; lia].
Qed.
Definition s0 : hstate := {| hs_cellid := cn_cellid (ge_conn g); hs_name := map fg_name (ge_faces g); hs_nodename := namen; hs_halofid := zeros_like 0 n |}.
Lemma s0_ok : st_ok n nbn s0.
Proof.
  destruct geometry_facts as (cn & Hcn & E1 & Ec & Ef & EL & HP). unfold st_ok, s0; cbn [hs_cellid hs_name hs_halofid hs_nodename]. rewrite Ef, E1, !zlen_map, zlen_range by apply zlen_nonneg.
  assert (Hn0 : 0 <= n) by apply zlen_nonneg. rewrite zlen_zeros_like by exact Hn0.
  assert (HR : forall f, 0 <= f < n -> nthZ [] (cn_cellid cn) f = [cleft cn f; cright cn f] /\ iscell nodeid (cleft cn f) /\ zlen (cn_cellid cn) = zlen (cn_faces cn)) by (intros f Hf; apply (cellid_row dim vertex nodeid WF cn Hcn); unfold n in Hf; lia).
  split; [|split; [reflexivity|]; split; [reflexivity|]; split; [exact HN|]; intros f Hf; rewrite (proj1 (HR f Hf)); reflexivity].
  destruct (c12 dim (zlen vertex) (ocells dim vertex nodeid) (WFo dim vertex nodeid WF)) as (cn' & E' & HL & _). rewrite Hcn in E'. injection E' as <-. unfold n; lia.
Qed.
Lemma cells_eq : map cg_nodes (ge_cells g) = ocells dim vertex nodeid.
Proof. destruct geometry_facts as (cn & _ & _ & Ec & _). rewrite Ec, map_map. reflexivity. Qed.

(** what holds of the ghosts of any result *)
Definition ghost_claim (h : halostruct) : Prop :=
  zlen (h_ghost h) = n /\ zlen (h_nodeghost h) = nbn /\ zlen (h_name h) = n /\
  (forall f, 0 <= f < n -> nthZ 0 (nthZ [] (h_cellid h) f) 0 = nthZ 0 (nthZ [] (cn_cellid (ge_conn g)) f) 0) /\
  (forall f, 0 <= f < n -> has_ghost dim (nthZ 0 (h_name h) f) = true ->
     mirror vertex (nthZ [] Fo f) (cg_center (nthZ (cg0 []) (ge_cells g) (nthZ 0 (nthZ [] (h_cellid h) f) 0))) (gc_pt (nthZ gc0 (h_ghost h) f))) /\
  (forall k, 0 <= k < nbn ->
     map ng_face (nthZ [] (h_nodeghost h) k) = filter (fun f => has_ghost dim (nthZ 0 (h_name h) f) && mem k (nthZ [] Fo f)) (range n) /\
     forall e, In e (nthZ [] (h_nodeghost h) k) -> let f := ng_face e in
       ng_pt e = gc_pt (nthZ gc0 (h_ghost h) f) /\ ng_cell e = nthZ 0 (nthZ [] (h_cellid h) f) 0 /\ ng_name e = nthZ 0 (h_name h) f /\
       ng_fcenter e = fg_center (nthZ fg0 (ge_faces g) f) /\ ng_fnormal e = fg_normal (nthZ fg0 (ge_faces g) f)).

Lemma sequential : forall halosext loctoglob, exists h, create_halo_structure dim 1 g vertex namen halosext loctoglob = Ok h /\ ghost_claim h /\
  h_cellid h = cn_cellid (ge_conn g) /\ h_name h = map fg_name (ge_faces g) /\ h_nodename h = namen /\ h_loctoglob h = range nbn.
Proof.
  intros halosext loctoglob. unfold create_halo_structure. cbn [Z.ltb Z.compare Pos.compare Pos.compare_cont Z.eqb Pos.eqb bind].
  change {| hs_cellid := cn_cellid (ge_conn g); hs_name := map fg_name (ge_faces g); hs_nodename := namen; hs_halofid := zeros_like 0 (zlen (ge_facenodes g)) |} with s0.
  destruct (ghost_part s0 s0_ok ltac:(reflexivity)) as (G & N & E & H). rewrite E. cbn [bind].
  assert (EC : exists r, cell_halonid dim (zeros_like [0; 0] (zlen vertex)) (map cg_nodes (ge_cells g)) (zlen (map cg_nodes (ge_cells g))) = Ok r).
  { rewrite cells_eq. unfold cell_halonid. rewrite (mapM_ok _ (fun _ => [])); [cbn [bind]; eexists; reflexivity|].
    intros c Hc. apply in_range in Hc. unfold cell_halo. rewrite (foldM_ext _ (fun l j => ret l)).
    - assert (G0 : forall (js : list Z) l, foldM (fun (l : list Z) (j : Z) => ret l) js l = Ok l) by (induction js as [|j js IH]; intros l; cbn; [reflexivity | apply IH]). rewrite G0. reflexivity.
    - intros l j Hj. apply in_range in Hj. destruct (wm_rows _ _ _ (WFo dim vertex nodeid WF) (nthZ [] (ocells dim vertex nodeid) c)) as (HL & _ & Hr); [apply nthZ_In; exact Hc|].
      rewrite (get2_nthZ 0) by lia. cbn [bind]. rewrite (get_nthZ []) by (rewrite zlen_zeros_like by apply zlen_nonneg; apply Hr, nthZ_In; lia).
      rewrite nthZ_zeros_like by (apply Hr, nthZ_In; lia). cbn [bind]. change (get [0; 0] (-1)) with (Ok 0). cbn [bind]. change (Z.to_nat 0) with O. cbn [firstn]. rewrite app_nil_r. reflexivity. }
  destruct EC as (r & EC). rewrite EC. cbn [bind]. eexists. split; [reflexivity|]. unfold ghost_claim. cbn [h_ghost h_nodeghost h_name h_cellid h_nodename h_loctoglob fst snd].
  destruct s0_ok as (_ & L2 & _). destruct H as (A & B & C & D). split; [|auto 6]. split; [exact A|]. split; [exact B|]. split; [exact L2|]. split; [intros; reflexivity|]. split; [exact C | exact D].
Qed.

Context (size : Z) (halosext : list (list Z)) (loctoglob : list Z).
Hypothesis Hsize : 1 < size.
Hypothesis HLg : zlen loctoglob = nbn.
Hypothesis HND : NoDup loctoglob.
Hypothesis WH : wf_halos dim halosext.
Let touches (f h : Z) : Prop := halo_has loctoglob halosext (nthZ [] Fo f) h.
Let onhalo (k : Z) : Prop := exists f h, 0 <= f < n /\ In k (nthZ [] Fo f) /\ touches f h.

Lemma Fo_globals : forall f, 0 <= f < n -> zlen (nthZ [] Fo f) = dim /\ NoDup (globals loctoglob (nthZ [] Fo f)) /\ forall k, In k (nthZ [] Fo f) -> 0 <= k < zlen loctoglob.
Proof.
  intros f Hf. destruct (Fo_facts f Hf) as (A & B & C). rewrite HLg. split; [exact A|]. split; [|exact C].
  assert (G : forall l, NoDup l -> (forall k, In k l -> 0 <= k < nbn) -> NoDup (map (nthZ 0 loctoglob) l)).
  { induction 1 as [|x l Hx Hl IH]; intros Hr; cbn [map]; constructor.
    - intros Hin. apply in_map_iff in Hin as (y & Ey & Hy). assert (y = x); [|subst; contradiction].
      apply (proj1 (NoDup_nth loctoglob 0) HND) in Ey; pose proof (Hr x ltac:(left; reflexivity)); pose proof (Hr y ltac:(right; exact Hy)); unfold nbn, zlen in *; lia.
    - apply IH. intros; apply Hr; right; assumption. }
  apply G; [exact B | exact C].
Qed.

(** case analysis on a decidable touching *)
Lemma touches_dec f : (exists h, touches f h) \/ (forall h, ~ touches f h).
Proof.
  destruct (existsb (fun h => forallb (fun x => mem x (halo_nodes halosext h)) (globals loctoglob (nthZ [] Fo f))) (range (zlen halosext))) eqn:E.
  - left. apply existsb_exists in E as (h & Hh & Hf). apply in_range in Hh. exists h. split; [exact Hh|]. intros x Hx. rewrite forallb_forall in Hf. apply mem_In. apply Hf. exact Hx.
  - right. intros h (Hh & Hi). rewrite <- not_true_iff_false in E. apply E. apply existsb_exists. exists h. split; [apply in_range; exact Hh|]. apply forallb_forall. intros x Hx. apply mem_In, Hi, Hx.
Qed.
Lemma onhalo_dec k : onhalo k \/ ~ onhalo k.
Proof.
  assert (G : forall m, (exists f h, 0 <= f < Z.of_nat m /\ f < n /\ In k (nthZ [] Fo f) /\ touches f h) \/ ~ (exists f h, 0 <= f < Z.of_nat m /\ f < n /\ In k (nthZ [] Fo f) /\ touches f h)).
  { induction m as [|m [(f & h & A & B)|IH]].
    - right. intros (f & h & A & _). lia.
    - left. exists f, h. split; [lia | exact B].
    - destruct (Z_lt_dec (Z.of_nat m) n) as [Hl|Hl]; [|right; intros (f & h & A & B & C); apply IH; exists f, h; split; [lia|]; auto].
      destruct (in_dec Z.eq_dec k (nthZ [] Fo (Z.of_nat m))) as [Hk|Hk], (touches_dec (Z.of_nat m)) as [(h & Hh)|Hh].
      1: left; exists (Z.of_nat m), h; split; [lia|]; auto.
      all: right; intros (f & h' & A & B & C & D); destruct (Z.eq_dec f (Z.of_nat m)) as [->|Hne]; [first [contradiction | exact (Hh _ D)] | apply IH; exists f, h'; split; [lia|]; auto]. }
  destruct (G (Z.to_nat n)) as [(f & h & A & B & C)|H]; [left; exists f, h; split; [lia | exact C]|]. right. intros (f & h & A & B). apply H. exists f, h. split; [lia|]. split; [lia | exact B].
Qed.

Lemma whole : (exists f h, 0 <= f < n /\ touches f h) -> ~ In 10 namen ->
  exists h, create_halo_structure dim size g vertex namen halosext loctoglob = Ok h /\ ghost_claim h /\
  zlen (h_cellid h) = n /\ zlen (h_halofid h) = n /\ zlen (h_nodename h) = nbn /\ h_loctoglob h = loctoglob /\
  (forall f, 0 <= f < n ->
     ((exists c, touches f c) -> nthZ [] (h_cellid h) f = [nthZ 0 (nthZ [] (cn_cellid (ge_conn g)) f) 0; -10] /\ nthZ 0 (h_name h) f = 10 /\ touches f (nthZ 0 (h_halofid h) f)) /\
     ((forall c, ~ touches f c) -> nthZ [] (h_cellid h) f = nthZ [] (cn_cellid (ge_conn g)) f /\ nthZ 0 (h_name h) f = fg_name (nthZ fg0 (ge_faces g) f))) /\
  (forall k, 0 <= k < nbn -> (onhalo k -> nthZ 0 (h_nodename h) k = 10) /\ (~ onhalo k -> nthZ 0 (h_nodename h) k = nthZ 0 namen k)) /\
  zlen (h_nodehalo h) = nbn /\
  (forall k, 0 <= k < nbn -> exists W pad, nthZ [] (h_nodehalo h) k = W ++ pad ++ [zlen W] /\ StronglySorted Z.lt W /\
     forall c, In c W <-> onhalo k /\ ishalo halosext c /\ In (nthZ 0 loctoglob k) (halo_nodes halosext c)) /\
  zlen (h_cellhalo h) = zlen nodeid /\
  (forall i, iscell nodeid i -> exists U pad, nthZ [] (h_cellhalo h) i = U ++ pad ++ [zlen U] /\ NoDup U /\
     forall c, In c U <-> exists k, In k (cell nodeid i) /\ onhalo k /\ ishalo halosext c /\ In (nthZ 0 loctoglob k) (halo_nodes halosext c)).
Proof.
  intros (f0 & h0 & Hf0 & Ht0) Hno10. unfold create_halo_structure. replace (1 <? size) with true by lia. replace (size =? 1) with false by lia.
  change {| hs_cellid := cn_cellid (ge_conn g); hs_name := map fg_name (ge_faces g); hs_nodename := namen; hs_halofid := zeros_like 0 (zlen (ge_facenodes g)) |} with s0.
  assert (Hs0 : st_ok (zlen Fo) (zlen loctoglob) s0) by (rewrite HLg; exact s0_ok).
  destruct (mark_spec dim halosext (wm_dim _ _ _ WF) WH loctoglob Fo s0 Fo_globals Hs0) as (s & E & Hs & Hfa & Hno). change (zlen Fo) with n in Hs, Hfa, Hno. rewrite HLg in Hs, Hno.
  change (ge_facenodes g) with Fo at 1. rewrite E. cbn [bind].
  assert (Hnm : forall k, 0 <= k < nbn -> named (hs_nodename s) k = true <-> onhalo k).
  { intros k Hk. destruct (Hno k Hk) as (A & B). unfold named. split.
    - intros H. destruct (onhalo_dec k) as [Ho|Ho]; [exact Ho|]. exfalso. rewrite B in H by (intros f h Hf Hin Hh; apply Ho; exists f, h; auto).
      apply Hno10. apply Z.eqb_eq in H. rewrite <- H. cbn [hs_nodename s0]. apply nthZ_In. rewrite HN. exact Hk.
    - intros (f & h & Hf & Hin & Hh). rewrite A by (exists f, h; auto). reflexivity. }
  destruct Hs as (L1 & L2 & L3 & L4 & L5).
  assert (HlenN : zlen (hs_nodename s) = zlen loctoglob) by (rewrite L4, HLg; reflexivity).
  assert (HL1 : 1 <= longueur halosext loctoglob (hs_nodename s)).
  { destruct (Fo_facts f0 Hf0) as (Hd & _ & Hr). assert (Hk : exists k, In k (nthZ [] Fo f0)).
    { destruct (nthZ [] Fo f0) as [|k l]; [unfold zlen in Hd; cbn in Hd; destruct (wm_dim _ _ _ WF); lia | exists k; left; reflexivity]. }
    destruct Hk as (k & Hk). specialize (Hr k Hk).
    assert (Ho : onhalo k) by (exists f0, h0; auto). apply (Hnm k Hr) in Ho.
    pose proof (longueur_ge halosext loctoglob (hs_nodename s) k) as LG. rewrite HLg in LG. specialize (LG Hr Ho).
    assert (Hin : In h0 (Wn halosext loctoglob k)). { apply halos_of_In. destruct Ht0 as (A & B). split; [exact A|]. apply B. apply in_map. exact Hk. }
    destruct (Wn halosext loctoglob k) as [|x l]; [destruct Hin|]. rewrite zlen_cons in LG. pose proof (zlen_nonneg l). lia. }
  pose proof (node_halonid_ok dim halosext loctoglob (hs_nodename s) (wm_dim _ _ _ WF) WH HlenN HL1) as ENH. rewrite HLg in ENH. unfold nbn in ENH. rewrite ENH. cbn [bind]. fold nbn.
  assert (Hcol : forall f, 0 <= f < n -> nthZ 0 (nthZ [] (hs_cellid s) f) 0 = nthZ 0 (nthZ [] (cn_cellid (ge_conn g)) f) 0).
  { intros f Hf. destruct (touches_dec f) as [H|H]; [rewrite (proj1 (proj1 (Hfa f Hf) H)); reflexivity | rewrite (proj1 (proj2 (Hfa f Hf) H)); reflexivity]. }
  assert (Hst : st_ok n nbn s) by (repeat split; assumption).
  destruct (ghost_part s Hst Hcol) as (G & N & EG & A1 & A2 & A3 & A4). rewrite EG. cbn [bind]. rewrite cells_eq.
  pose proof (cell_halonid_ok dim halosext loctoglob (hs_nodename s) (ocells dim vertex nodeid)) as EC. rewrite HLg in EC. unfold nbn in EC.
  destruct (EC (WFo dim vertex nodeid WF)) as (mx & EC' & Hmx). clear EC. fold nbn in EC'. rewrite EC'. cbn [bind].
  eexists. split; [reflexivity|].
  split; [unfold ghost_claim; cbn [h_ghost h_nodeghost h_name h_cellid fst snd]; split; [exact A1|]; split; [exact A2|]; split; [exact L2|]; split; [exact Hcol|]; split; [exact A3 | exact A4]|].
  cbn [h_cellid h_halofid h_nodename h_loctoglob h_name h_nodehalo h_cellhalo].
  split; [exact L1|]. split; [exact L3|]. split; [exact L4|]. split; [reflexivity|]. split.
  { intros f Hf. destruct (Hfa f Hf) as (B1 & B2). split; [exact B1|]. intros H. destruct (B2 H) as (C1 & C2 & _). split; [exact C1|]. rewrite C2. cbn [hs_name s0]. rewrite (nthZ_map _ fg0); [reflexivity|].
    destruct geometry_facts as (cn & _ & _ & _ & Ef & _). rewrite Ef, zlen_map, zlen_range by apply zlen_nonneg. exact Hf. }
  split.
  { intros k Hk. destruct (Hno k Hk) as (B1 & B2). split; [intros (f & h & Hf & Hin & Hh); apply B1; exists f, h; auto | intros Ho; apply B2; intros f h Hf Hin Hh; apply Ho; exists f, h; auto]. }
  assert (HW : forall k, 0 <= k < nbn -> forall c, In c (Wk halosext loctoglob (hs_nodename s) k) <-> onhalo k /\ ishalo halosext c /\ In (nthZ 0 loctoglob k) (halo_nodes halosext c)).
  { intros k Hk c. unfold Wk. destruct (named (hs_nodename s) k) eqn:En.
    - unfold Wn. rewrite halos_of_In. apply (Hnm k Hk) in En. tauto.
    - split; [intros [] | intros (Ho & _)]. apply (Hnm k Hk) in Ho. congruence. }
  split; [rewrite zlen_map, zlen_range by apply zlen_nonneg; reflexivity|]. split.
  { intros k Hk. rewrite (nthZ_map _ 0) by (rewrite zlen_range; lia). rewrite nthZ_range by exact Hk. unfold halo_row. fold (Wk halosext loctoglob (hs_nodename s) k).
    eexists _, _. split; [reflexivity|]. split; [|apply HW; exact Hk]. unfold Wk. destruct (named _ k); [apply halos_of_sorted | constructor]. }
  split; [rewrite zlen_map, zlen_range by apply zlen_nonneg; apply zlen_ocells|].
  intros i Hi. rewrite (nthZ_map _ 0) by (rewrite zlen_range; [rewrite zlen_ocells; exact Hi | apply zlen_nonneg]). rewrite nthZ_range by (rewrite zlen_ocells; exact Hi).
  eexists _, _. split; [reflexivity|]. unfold Uc. split; [apply np_unique_NoDup|]. intros c. rewrite np_unique_In, in_flat_map.
  assert (HPc := ocell_perm dim vertex nodeid WF i Hi). split.
  - intros (k & Hk & Hc). assert (Hk' : In k (cell nodeid i)) by (eapply Permutation_in; [exact HPc | exact Hk]). exists k. split; [exact Hk'|].
    apply (HW k); [|exact Hc]. apply (wm_rows _ _ _ WF (cell nodeid i)); [apply nthZ_In; exact Hi | exact Hk'].
  - intros (k & Hk & Hc). exists k. split; [eapply Permutation_in; [symmetry; exact HPc | exact Hk]|]. apply (HW k); [|exact Hc].
    apply (wm_rows _ _ _ WF (cell nodeid i)); [apply nthZ_In; exact Hi | exact Hk].
Qed.

Lemma whole_err : (forall f h, 0 <= f < n -> ~ touches f h) -> ~ In 10 namen -> 0 < nbn -> create_halo_structure dim size g vertex namen halosext loctoglob = Err IndexError.
Proof.
  intros Hnone Hno10 Hpos. unfold create_halo_structure. replace (1 <? size) with true by lia.
  change {| hs_cellid := cn_cellid (ge_conn g); hs_name := map fg_name (ge_faces g); hs_nodename := namen; hs_halofid := zeros_like 0 (zlen (ge_facenodes g)) |} with s0.
  assert (Hs0 : st_ok (zlen Fo) (zlen loctoglob) s0) by (rewrite HLg; exact s0_ok).
  destruct (mark_spec dim halosext (wm_dim _ _ _ WF) WH loctoglob Fo s0 Fo_globals Hs0) as (s & E & Hs & _ & Hno). change (zlen Fo) with n in Hs, Hno. rewrite HLg in Hs, Hno.
  change (ge_facenodes g) with Fo at 1. rewrite E. cbn [bind]. destruct Hs as (_ & _ & _ & L4 & _).
  pose proof (node_halonid_err dim halosext loctoglob (hs_nodename s) (wm_dim _ _ _ WF) WH) as EE. rewrite HLg in EE.
  unfold nbn in EE. rewrite EE; [reflexivity | exact L4 | | exact Hpos].
  intros k Hk. rewrite (proj2 (Hno k Hk)) by (intros f h Hf _; apply Hnone; exact Hf). cbn [hs_nodename s0]. intros E10. apply Hno10. rewrite <- E10. apply nthZ_In. rewrite HN. exact Hk.
Qed.
End Whole.
