(** * Proofs_linsys9: the gradient of the solution (C53). *)
From Verif Require Import Py PyLemmas Model_part Model_conn Spec_conn Model_geom Spec_geom Model_interp Spec_interp Proofs_conn1 Proofs_interp1 Proofs_interp2 Proofs_interp4 Model_bc Model_linsys Spec_linsys Proofs_linsys1 Proofs_linsys4.
From Coq Require Import ZifyBool Lra.
Open Scope Z_scope.

Definition oneg (g : option pt) : option pt := match g with Some g => Some (vneg g) | None => None end.
Lemma odiv_opp a b : odiv (-1 * a) b = match odiv a b with Some x => Some (- x)%R | None => None end.
Proof. unfold odiv. destruct (Req_EM_T b 0); [reflexivity|]. f_equal. unfold Rdiv. ring. Qed.

Section Face.
Context (dim : Z) (G : facedata) (WF : wf_facedata dim G) (W : values).
Notation nf := (zlen (fd_cellid G)).
Notation dia := (Proofs_interp4.dia dim G).
Context (HWc : zlen (w_c W) = zlen (fd_centerc G)).
(** one face: the result depends on the node values at the nodes of the face only *)
Lemma sol_face_ok (wn : list R) node right g i vr : 0 <= i < nf -> zlen g = nf -> right (left_value G W i) = Ok vr -> (forall k, In k (nthZ [] (fd_nodes G) i) -> node k = Ok (nthZ 0%R wn k)) ->
  sol_face dim G (map dia (range nf)) W node right g i = Ok (upd g i (oneg (fgrad dim G W wn i vr))).
Proof.
  intros Hi Hg HR HN. destruct (wfa_len _ _ WF) as (L1 & L2 & L3 & L4 & L5 & L6). destruct (left_get dim G WF i Hi) as (Lg & Lc). destruct (wfa_face _ _ WF i Hi) as (R1 & R2 & R3 & _).
  assert (LV : get (w_c W) (nthZ 0 (nthZ [] (fd_cellid G) i) 0) = Ok (left_value G W i)) by (apply get_nthZ; lia).
  assert (LN : forall j, 0 <= j < dim -> node (nthZ 0 (nthZ [] (fd_nodes G) i) j) = Ok (wnode G wn i j)) by (intros j Hj; apply HN, nthZ_In; lia).
  unfold sol_face. rewrite Lg. cbn [bind]. rewrite LV. cbn [bind]. rewrite HR. cbn [bind].
  destruct (node_get dim G WF i 0 Hi) as (A1 & _); [destruct (wfa_dim _ _ WF); lia|]. destruct (node_get dim G WF i 1 Hi) as (B1 & _); [destruct (wfa_dim _ _ WF); lia|].
  rewrite A1. cbn [bind]. rewrite B1. cbn [bind]. rewrite !LN by (destruct (wfa_dim _ _ WF); lia). cbn [bind].
  unfold fgrad. destruct (wfa_dim _ _ WF) as [Ed|Ed].
  - replace (dim =? 2) with true by lia. unfold sol_grad2. rewrite get_map_range by lia. cbn [bind]. rewrite set_upd by lia. do 2 f_equal.
    unfold odiv. destruct (Req_EM_T (2 * di_air (dia i)) 0); [reflexivity|]. cbn [oneg]. unfold vneg. cbn [px py pz]. f_equal. f_equal; [| | ring]; unfold Rdiv; ring.
  - replace (dim =? 2) with false by lia. destruct (node_get dim G WF i 2 Hi ltac:(lia)) as (C1 & _). rewrite C1. cbn [bind]. rewrite LN by lia. cbn [bind]. unfold sol_grad3. rewrite get_map_range by lia. cbn [bind]. rewrite (get_nthZ vzero) by lia. cbn [bind].
    rewrite set_upd by lia. do 2 f_equal. cbv zeta. rewrite !odiv_opp. unfold odiv. destruct (Req_EM_T (di_air (dia i)) 0); reflexivity.
Qed.
End Face.
(** a loop that writes one face after the other *)
Lemma face_loop (nf : Z) (P : Z -> option pt -> Prop) (f : list (option pt) -> Z -> res (list (option pt))) l g :
  (forall g i, In i l -> zlen g = nf -> 0 <= i < nf /\ exists r, f g i = Ok (upd g i r) /\ P i r) -> zlen g = nf ->
  exists g', foldM f l g = Ok g' /\ zlen g' = nf /\ forall i, 0 <= i < nf -> (In i l -> P i (nthZ None g' i)) /\ (~ In i l -> nthZ None g' i = nthZ None g i).
Proof.
  revert g. induction l as [|k l IH]; intros g H Hg; [exists g; split; [reflexivity|]; split; [exact Hg|]; intros i _; split; [intros [] | reflexivity]|].
  destruct (H g k (or_introl eq_refl) Hg) as (Hk & r & E & Pr). cbn [foldM]. rewrite E. cbn [bind].
  destruct (IH (upd g k r)) as (g' & E' & L' & Q); [intros g0 i Hi; apply H; right; exact Hi | rewrite zlen_upd; exact Hg|].
  exists g'. split; [exact E'|]. split; [exact L'|]. intros i Hi. destruct (Q i Hi) as (Q1 & Q2). split.
  - intros Hin. destruct (in_dec Z.eq_dec i l) as [D|D]; [apply Q1; exact D|]. destruct Hin as [-> |Hin]; [|contradiction]. rewrite Q2 by exact D. rewrite nthZ_upd_eq by lia. exact Pr.
  - intros Hn. rewrite Q2 by (intros D; apply Hn; right; exact D). apply nthZ_upd_neq; [lia | lia |]. intros ->. apply Hn. left. reflexivity.
Qed.

Section Sol.
Context (dim : Z) (S : lsys) (B : bord) (L : facelists) (W : values) (w_node : list R).
Notation G := (sy_G S).
Notation nf := (zlen (fd_cellid G)).
Context (WF : wf_facedata dim G) (ED : face_gradient_info dim G = Ok (sy_D S)) (LO : lists_ok dim G L).
Context (HWc : zlen (w_c W) = zlen (fd_centerc G)) (HWg : zlen (w_ghost W) = nf) (HWh : zlen (w_halo W) = zlen (fd_centerh G)) (HWn : zlen w_node = zlen (fd_vertex G)).
Context (HO : zlen (nd_old (sy_N S)) = zlen (fd_vertex G)) (HBn : zlen (pb_node B) = zlen (fd_vertex G)) (HBf : zlen (pb_face B) = nf).
Definition eff : list R := map (fun k => if is_dir S k then nthZ 0%R (pb_node B) k else nthZ 0%R w_node k) (range (zlen (fd_vertex G))).
Lemma eff_at k : 0 <= k < zlen (fd_vertex G) -> nthZ 0%R eff k = if is_dir S k then nthZ 0%R (pb_node B) k else nthZ 0%R w_node k.
Proof. intros Hk. unfold eff. rewrite (nthZ_map _ 0) by (rewrite zlen_range; lia). rewrite nthZ_range by lia. reflexivity. Qed.
Definition pnode (k : Z) : res R := do v <- get w_node k; do old <- get (nd_old (sy_N S)) k; if search_element (sy_bcd S) old =? 1 then get (pb_node B) k else ret v.
Lemma pnode_ok k : 0 <= k < zlen (fd_vertex G) -> pnode k = Ok (nthZ 0%R eff k).
Proof.
  intros Hk. rewrite eff_at by exact Hk. unfold pnode. rewrite (get_nthZ 0%R) by lia. cbn [bind]. rewrite (get_nthZ 0) by lia. cbn [bind]. unfold is_dir, search_element. destruct (mem _ _); cbn [Z.eqb Pos.eqb]; [rewrite (get_nthZ 0%R) by lia|]; reflexivity.
Qed.
Definition Pn (i : Z) (r : option pt) : Prop := r = oneg (fgrad dim G W eff i (value_at W (snd (face_other dim G i)))).
Definition Pd (i : Z) (r : option pt) : Prop := r = oneg (fgrad dim G W (pb_node B) i (2 * nthZ 0 (pb_face B) i - left_value G W i)%R).
Lemma compute_P_ok g : zlen g = nf -> exists gs, compute_P_gradient dim S B W w_node L g = Ok gs /\ zlen gs = nf /\
  forall i, 0 <= i < nf -> (In i (fl_dirichlet L) -> Pd i (nthZ None gs i)) /\ (listed L i -> ~ In i (fl_dirichlet L) -> Pn i (nthZ None gs i)) /\ (~ listed L i -> nthZ None gs i = nthZ None g i).
Proof.
  intros Hg. destruct LO as (O1 & O2 & O3 & O4). cbv zeta in *. destruct (wfa_len _ _ WF) as (L1 & L2 & L3 & L4 & L5 & L6). rewrite (face_info_ok dim G WF) in ED. injection ED as ED'.
  unfold compute_P_gradient. cbv zeta. change (fun k => do v <- get w_node k; do old <- get (nd_old (sy_N S)) k; if search_element (sy_bcd S) old =? 1 then get (pb_node B) k else ret v) with pnode. rewrite <- ED'.
  assert (ND : forall i, 0 <= i < nf -> forall k, In k (nthZ [] (fd_nodes G) i) -> pnode k = Ok (nthZ 0%R eff k)) by (intros i Hi k Hk; apply pnode_ok; destruct (wfa_face _ _ WF i Hi) as (_ & _ & _ & R4 & _); apply R4; exact Hk).
  assert (Fc : forall l g, (forall i, In i l -> 0 <= i < nf /\ (nthZ 0 (fd_name G) i = 0 \/ is_periodic dim (nthZ 0 (fd_name G) i) = true)) -> forall i, In i l -> zlen g = nf ->
     0 <= i < nf /\ exists r, (do c <- get2 (fd_cellid G) i 1; sol_face dim G (map (Proofs_interp4.dia dim G) (range nf)) W pnode (fun _ => get (w_c W) c) g i) = Ok (upd g i r) /\ Pn i r).
  { intros l g0 Hl i Hi Hg0. destruct (Hl i Hi) as (Hin & Hlab). split; [exact Hin|]. destruct (wfa_face _ _ WF i Hin) as (R1 & R2 & R3 & R4 & R5 & R6). cbv zeta in R5. specialize (R5 Hlab).
    unfold get2 at 1. rewrite (get_nthZ []) by lia. cbn [bind]. rewrite (get_nthZ 0) by lia. cbn [bind]. eexists. split; [|reflexivity]. apply sol_face_ok; try assumption; [|apply ND; exact Hin].
    rewrite (get_nthZ 0%R) by lia. f_equal. unfold face_other. cbv zeta. destruct (_ =? 0) eqn:E0; [reflexivity|]. destruct Hlab as [Hlab|Hlab]; [lia | rewrite Hlab; reflexivity]. }
  assert (Fh : forall g i, In i (fl_halo L) -> zlen g = nf ->
     0 <= i < nf /\ exists r, (do h <- get (fd_halofid G) i; sol_face dim G (map (Proofs_interp4.dia dim G) (range nf)) W pnode (fun _ => get (w_halo W) h) g i) = Ok (upd g i r) /\ Pn i r).
  { intros g0 i Hi Hg0. destruct (O3 i Hi) as (Hin & Hlab). split; [exact Hin|]. destruct (wfa_face _ _ WF i Hin) as (R1 & R2 & R3 & R4 & R5 & R6). cbv zeta in R6. specialize (R6 Hlab).
    rewrite (get_nthZ 0) by lia. cbn [bind]. eexists. split; [|reflexivity]. apply sol_face_ok; try assumption; [|apply ND; exact Hin].
    rewrite (get_nthZ 0%R) by lia. f_equal. unfold face_other. cbv zeta. rewrite Hlab. cbn [Z.eqb Pos.eqb]. replace (is_periodic dim 10) with false; [reflexivity|]. unfold is_periodic, is_x, is_y, is_z. cbn. lia. }
  assert (Fn : forall g i, In i (fl_neumann L) -> zlen g = nf ->
     0 <= i < nf /\ exists r, sol_face dim G (map (Proofs_interp4.dia dim G) (range nf)) W pnode (fun _ => get (w_ghost W) i) g i = Ok (upd g i r) /\ Pn i r).
  { intros g0 i Hi Hg0. destruct (O4 i (or_intror Hi)) as (Hin & Hl0 & Hlp & Hlh). split; [exact Hin|]. eexists. split; [|reflexivity]. apply sol_face_ok; try assumption; [|apply ND; exact Hin].
    rewrite (get_nthZ 0%R) by lia. f_equal. unfold face_other. cbv zeta. replace (_ =? 0) with false by lia. rewrite Hlp. replace (_ =? 10) with false by lia. reflexivity. }
  assert (Fd : forall g i, In i (fl_dirichlet L) -> zlen g = nf ->
     0 <= i < nf /\ exists r, (do vk <- get (pb_face B) i; sol_face dim G (map (Proofs_interp4.dia dim G) (range nf)) W (get (pb_node B)) (fun vl => Ok (2 * vk - vl)%R) g i) = Ok (upd g i r) /\ Pd i r).
  { intros g0 i Hi Hg0. destruct (O4 i (or_introl Hi)) as (Hin & _). split; [exact Hin|]. rewrite (get_nthZ 0%R) by lia. cbn [bind]. eexists. split; [|reflexivity]. apply sol_face_ok; try assumption; [reflexivity|].
    intros k Hk. apply get_nthZ. rewrite HBn. destruct (wfa_face _ _ WF i Hin) as (_ & _ & _ & R4 & _). apply R4; exact Hk. }
  match goal with |- context [foldM ?f (fl_inner L) g] => destruct (face_loop nf Pn f (fl_inner L) g) as (g1 & E1 & Z1 & P1) end; [intros g0 i Hi; apply (Fc (fl_inner L)); [intros k Hk; destruct (O1 k Hk); tauto | exact Hi] | exact Hg |]. rewrite E1. cbn [bind].
  match goal with |- context [foldM ?f (fl_periodic L) g1] => destruct (face_loop nf Pn f (fl_periodic L) g1) as (g2 & E2 & Z2 & P2) end; [intros g0 i Hi; apply (Fc (fl_periodic L)); [intros k Hk; destruct (O2 k Hk); tauto | exact Hi] | exact Z1 |]. rewrite E2. cbn [bind].
  match goal with |- context [foldM ?f (fl_neumann L) g2] => destruct (face_loop nf Pn f (fl_neumann L) g2) as (g3 & E3 & Z3 & P3) end; [exact Fn | exact Z2 |]. rewrite E3. cbn [bind].
  match goal with |- context [foldM ?f (fl_halo L) g3] => destruct (face_loop nf Pn f (fl_halo L) g3) as (g4 & E4 & Z4 & P4) end; [exact Fh | exact Z3 |]. rewrite E4. cbn [bind].
  match goal with |- context [foldM ?f (fl_dirichlet L) g4] => destruct (face_loop nf Pd f (fl_dirichlet L) g4) as (g5 & E5 & Z5 & P5) end; [exact Fd | exact Z4 |].
  exists g5. split; [exact E5|]. split; [exact Z5|]. intros i Hi. unfold listed.
  destruct (P1 i Hi) as (A1 & B1), (P2 i Hi) as (A2 & B2), (P3 i Hi) as (A3 & B3), (P4 i Hi) as (A4 & B4), (P5 i Hi) as (A5 & B5).
  split; [exact A5|]. destruct (in_dec Z.eq_dec i (fl_dirichlet L)) as [D5|D5]; [tauto|]. rewrite B5 by exact D5.
  destruct (in_dec Z.eq_dec i (fl_halo L)) as [D4|D4]; [tauto|]. rewrite B4 by exact D4.
  destruct (in_dec Z.eq_dec i (fl_neumann L)) as [D3|D3]; [tauto|]. rewrite B3 by exact D3.
  destruct (in_dec Z.eq_dec i (fl_periodic L)) as [D2|D2]; [tauto|]. rewrite B2 by exact D2.
  destruct (in_dec Z.eq_dec i (fl_inner L)) as [D1|D1]; [tauto|]. rewrite B1 by exact D1. tauto.
Qed.
End Sol.
