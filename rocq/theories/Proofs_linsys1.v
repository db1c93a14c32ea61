(** * Proofs_linsys1: what the assembly loops write (C38). *)
From Verif Require Import Py PyLemmas Model_part Model_conn Spec_conn Model_geom Spec_geom Model_halo Model_interp Spec_interp Proofs_conn1 Proofs_interp1 Proofs_interp2 Model_bc Model_linsys Spec_linsys.
From Coq Require Import ZifyBool.
Open Scope Z_scope.

Lemma set_app {A} (pre : list A) x rest v : set (pre ++ x :: rest) (zlen pre) v = Ok ((pre ++ [v]) ++ rest).
Proof.
  rewrite set_upd by (rewrite zlen_app, zlen_cons; pose proof (zlen_nonneg pre); pose proof (zlen_nonneg rest); lia). f_equal. unfold upd, zlen. rewrite Nat2Z.id.
  induction pre as [|y pre IH]; cbn; [reflexivity|]. f_equal. exact IH.
Qed.
Lemma set_past {A} (l : list A) v : set l (zlen l) v = Err IndexError.
Proof. unfold set. pose proof (zlen_nonneg l). replace (zlen l <? 0) with false by lia. replace ((zlen l <? 0) || (zlen l <=? zlen l)) with true by lia. reflexivity. Qed.

Lemma skipn_twice {A} a b (l : list A) : skipn a (skipn b l) = skipn (b + a) l.
Proof. revert l. induction b as [|b IH]; intros l; cbn [plus]; [reflexivity|]. destruct l; [rewrite !skipn_nil; reflexivity | apply IH]. Qed.

(** [em P Q f es0]: started in a P-state with the arrays filled up to the position cmpt, [f] writes, from there on, entries that agree with es0
    and ends in a Q-state, or runs over the end of the arrays.  Agreement: same rows and columns, and under NP the same values. *)
Section Em.
Context {St : Type} (tr : St -> trip) (NP : Prop).
Definition agrees (es es0 : list entry) : Prop := map fst es = map fst es0 /\ (NP -> es = es0).
Definition em (P Q : St -> Prop) (f : St -> res St) (es0 : list entry) : Prop := forall s pre rest, P s -> tr s = (zlen pre, pre ++ rest) ->
  (zlen es0 <= zlen rest -> exists s' es, f s = Ok s' /\ Q s' /\ agrees es es0 /\ tr s' = (zlen (pre ++ es), (pre ++ es) ++ skipn (length es0) rest)) /\
  (zlen rest < zlen es0 -> f s = Err IndexError).
Lemma agrees_len es es0 : agrees es es0 -> length es = length es0.
Proof. intros (H & _). apply (f_equal (@length _)) in H. rewrite !map_length in H. exact H. Qed.
Lemma agrees_refl es : agrees es es.
Proof. split; auto. Qed.
Lemma agrees_app a b a0 b0 : agrees a a0 -> agrees b b0 -> agrees (a ++ b) (a0 ++ b0).
Proof. intros (H1 & H2) (H3 & H4). split; [unfold entry in *; etransitivity; [apply map_app|]; etransitivity; [|symmetry; apply map_app]; apply f_equal2; assumption | intros H; rewrite H2, H4 by exact H; reflexivity]. Qed.
Lemma em_ret P : em P P (fun s => Ok s) [].
Proof. intros s pre rest HI HT. split; [|intros H; pose proof (zlen_nonneg rest); cbn in H; lia]. intros _. exists s, []. rewrite app_nil_r. repeat split; auto. Qed.
Lemma em_bind P Q T f g e1 e2 : em P Q f e1 -> em Q T g e2 -> em P T (fun s => do s' <- f s; g s') (e1 ++ e2).
Proof.
  intros Hf Hg s pre rest HI HT. destruct (Hf s pre rest HI HT) as (F1 & F2). rewrite zlen_app. pose proof (zlen_nonneg e1). pose proof (zlen_nonneg e2). split.
  - intros H1. destruct (F1 ltac:(lia)) as (s1 & es1 & E1 & I1 & A1 & T1). rewrite E1. cbn [bind].
    destruct (Hg s1 (pre ++ es1) (skipn (length e1) rest) I1 T1) as (G1 & _).
    destruct G1 as (s2 & es2 & E2 & I2 & A2 & T2). { unfold zlen in *. rewrite skipn_length. lia. }
    exists s2, (es1 ++ es2). split; [exact E2|]. split; [exact I2|]. split; [apply agrees_app; assumption|]. rewrite T2, !app_assoc, skipn_twice, app_length. reflexivity.
  - intros H1. destruct (Z_lt_le_dec (zlen rest) (zlen e1)) as [H2|H2]; [rewrite F2 by exact H2; reflexivity|].
    destruct (F1 H2) as (s1 & es1 & E1 & I1 & A1 & T1). rewrite E1. cbn [bind].
    destruct (Hg s1 (pre ++ es1) (skipn (length e1) rest) I1 T1) as (_ & G2). apply G2. unfold zlen in *. rewrite skipn_length. lia.
Qed.
Lemma em_ext (P Q : St -> Prop) f g es : (forall s, P s -> f s = g s) -> em P Q g es -> em P Q f es.
Proof. intros H Hg s pre rest HI HT. rewrite H by exact HI. apply Hg; assumption. Qed.
Lemma em_weak (P Q P' Q' : St -> Prop) f es : (forall s, P' s -> P s) -> (forall s, Q s -> Q' s) -> em P Q f es -> em P' Q' f es.
Proof.
  intros H1 H2 H s pre rest HI HT. destruct (H s pre rest (H1 s HI) HT) as (A & B). split; [|exact B]. intros H3. destruct (A H3) as (s' & es' & C1 & C2 & C3). exists s', es'. auto.
Qed.
Lemma em_fold {X} P (f : St -> X -> res St) (e : X -> list entry) l : (forall x, In x l -> em P P (fun s => f s x) (e x)) -> em P P (foldM f l) (flat_map e l).
Proof.
  induction l as [|x l IH]; intros H; cbn [foldM flat_map]; [apply em_ret|].
  apply (em_bind P P P (fun s => f s x) (foldM f l)); [apply H; left; reflexivity | apply IH; intros; apply H; right; assumption].
Qed.
Lemma count_foldM (f : St -> Z -> res St) row n s : row_ok n row -> count_loop row f s = foldM f (counted row) s.
Proof.
  intros (HL & HC & HR). unfold count_loop. rewrite (get_last 0) by exact HL. cbn [bind]. fold (row_count row).
  rewrite (foldM_ext _ (fun a j => f a (nthZ 0 row j))) by (intros a j Hj; apply in_range in Hj; rewrite (get_nthZ 0) by lia; reflexivity).
  rewrite <- (foldM_map f (nthZ 0 row)). rewrite firstn_nthZ by lia. reflexivity.
Qed.
Lemma em_count P f e row n : row_ok n row -> (forall c, In c (counted row) -> em P P (fun s => f s c) (e c)) -> em P P (count_loop row f) (flat_map e (counted row)).
Proof. intros HR H. apply (em_ext _ _ _ (foldM f (counted row))); [intros s _; apply (count_foldM f row n s HR) | apply em_fold; exact H]. Qed.
Lemma em_count_first (P Q : St -> Prop) f e row n : row_ok n row -> 0 < row_count row -> (forall s, Q s -> P s) -> (forall c, In c (counted row) -> em P Q (fun s => f s c) (e c)) ->
  em P Q (count_loop row f) (flat_map e (counted row)).
Proof.
  intros HR HC HQ H. apply (em_ext _ _ _ (foldM f (counted row))); [intros s _; apply (count_foldM f row n s HR)|].
  destruct (counted row) as [|c l] eqn:E.
  - exfalso. destruct HR as (H1 & H2 & _). unfold counted in E. destruct row as [|x row]; [cbv in H1; discriminate|]. destruct (Z.to_nat (row_count (x :: row))) eqn:E2; [lia | discriminate].
  - cbn [foldM flat_map]. apply (em_bind P Q Q (fun s => f s c)); [apply H; left; reflexivity|].
    apply em_fold. intros c' Hc'. apply (em_weak P Q); [exact HQ | auto | apply H; right; exact Hc'].
Qed.
Lemma em_ghost P f e rows : (forall g, In g (real_ghosts rows) -> em P P (fun s => f s g) (e g)) -> em P P (ghost_loop rows f) (flat_map e (real_ghosts rows)).
Proof.
  unfold ghost_loop, real_ghosts. induction rows as [|g l IH]; intros H; cbn [foldM filter flat_map]; [apply em_ret|]. cbn [filter] in H. destruct (g_last g =? -1); cbn [negb] in *.
  - apply (em_ext _ _ _ (fun s => foldM (fun a e0 => if g_last e0 =? -1 then Ok a else f a e0) l s)); [reflexivity|]. apply IH. exact H.
  - cbn [flat_map]. apply (em_bind P P P (fun s => f s g)); [apply H; left; reflexivity | apply IH; intros; apply H; right; assumption].
Qed.
End Em.

(** the columns and points a node contributes, in the order of the code *)
Definition cells_at (S : lsys) (k : Z) : list (pt * Z) := map (fun c => (nthZ vzero (nd_centerc (sy_N S)) c, global_cell S c)) (counted (nthZ [] (nd_cellid (sy_N S)) k)).
Definition ghosts_at (S : lsys) (k : Z) : list (pt * Z) := map (fun e => (g_pt e, global_cell S (g_cell e))) (real_ghosts (nthZ [] (nd_ghost (sy_N S)) k)).
Definition haloghosts_at (S : lsys) (k : Z) : list (pt * Z) := map (fun e => (g_pt e, global_halo S (g_cell e))) (real_ghosts (nthZ [] (nd_haloghost (sy_N S)) k)).
Definition halos_at (S : lsys) (k : Z) : list (pt * Z) := map (fun h => (nthZ vzero (nd_centerh (sy_N S)) h, global_halo S h)) (counted (nthZ [] (nd_haloid (sy_N S)) k)).
Definition periodics_at (S : lsys) (k : Z) : list (pt * Z) :=
  map (fun c => (image (nthZ 0 (nd_old (sy_N S)) k) (nthZ vzero (nd_centerc (sy_N S)) c) (nthZ vzero (nd_shift (sy_N S)) c), global_cell S c)) (counted (nthZ [] (nd_periodic (sy_N S)) k)).
Definition around (dim : Z) (S : lsys) (per : bool) (k : Z) : list (pt * Z) :=
  if dim =? 2 then cells_at S k ++ ghosts_at S k ++ haloghosts_at S k ++ (if per then periodics_at S k else []) ++ halos_at S k
  else cells_at S k ++ halos_at S k ++ (if per then periodics_at S k else []) ++ ghosts_at S k ++ haloghosts_at S k.
Definition is_dir (S : lsys) (k : Z) : bool := mem (nthZ 0 (nd_old (sy_N S)) k) (sy_bcd S).
Definition vol (S : lsys) (c : Z) : R := nthZ 0%R (sy_vol S) c.
(** the entries for one point *)
Definition pair_entries (S : lsys) (l : Z) (r : option Z) (param a : option R) (col : Z) : list entry :=
  (global_cell S l, col, omul (odivo a (vol S l)) param) ::
  match r with None => [] | Some r => [(global_cell S r, col, omul (odivo (oopp a) (vol S r)) param)] end.
Definition nv_at (S : lsys) (k : Z) : nodevar := nthZ {| nv_R := vzero; nv_number := 0; nv_lambda := None |} (sy_nv S) k.
Definition weight (dim : Z) (S : lsys) (k : Z) (p : pt) : option R := alpha (nv_at S k) (disp dim p (nthZ vzero (nd_vertex (sy_N S)) k)).
Definition node_entries (dim : Z) (S : lsys) (l : Z) (r : option Z) (per : bool) (param : option R) (k : Z) : list entry :=
  if is_dir S k then [] else flat_map (fun pc => pair_entries S l r param (weight dim S k (fst pc)) (snd pc)) (around dim S per k).
Definition dia (S : lsys) (f : Z) : diamond :=
  nthZ {| di_f1 := vzero; di_f2 := vzero; di_f3 := vzero; di_f4 := vzero; di_air := 0; di_p1 := None; di_p2 := None; di_p3 := None; di_p4 := None |} (sy_D S) f.
(** the nodes of a face with their parameters *)
Definition weighted_nodes (dim : Z) (S : lsys) (f : Z) : list (option R * Z) :=
  let d := dia S f in let n k := nthZ 0 (nodes_of S f) k in
  if dim =? 2 then [(di_p4 d, n 0); (di_p2 d, n 1)]
  else [(di_p1 d, n 0); (di_p2 d, n 1); (oopp (di_p1 d), n 2); (oopp (di_p2 d), n 2)].
Definition nodes_entries (dim : Z) (S : lsys) (l : Z) (r : option Z) (per : bool) (f : Z) : list entry :=
  flat_map (fun pn => node_entries dim S l r per (fst pn) (snd pn)) (weighted_nodes dim S f).
Definition inner_entries (dim : Z) (S : lsys) (f : Z) : list entry :=
  let l := left_cell S f in let r := right_cell S f in let d := dia S f in let gl := global_cell S l in let gr := global_cell S r in
  let p1 := if dim =? 2 then di_p1 d else oopp (di_p3 d) in
  [(gl, gl, odivo p1 (vol S l))] ++ nodes_entries dim S l (Some r) true f ++
  [(gl, gr, odivo (di_p3 d) (vol S l)); (gr, gl, odivo (if dim =? 2 then oopp (di_p1 d) else di_p3 d) (vol S r)); (gr, gr, odivo (oopp (di_p3 d)) (vol S r))].
Definition halo_entries (dim : Z) (S : lsys) (f : Z) : list entry :=
  let l := left_cell S f in let d := dia S f in let gl := global_cell S l in let gr := global_halo S (nthZ 0 (fd_halofid (sy_G S)) f) in
  if dim =? 2 then [(gl, gl, odivo (di_p1 d) (vol S l)); (gl, gr, odivo (di_p3 d) (vol S l))] ++ nodes_entries dim S l None false f
  else nodes_entries dim S l None false f ++ [(gl, gl, odivo (oopp (di_p3 d)) (vol S l)); (gl, gr, odivo (di_p3 d) (vol S l))].
Definition dir_entries (dim : Z) (S : lsys) (f : Z) : list entry :=
  let l := left_cell S f in let d := dia S f in let gl := global_cell S l in
  [(gl, gl, odivo (if dim =? 2 then di_p1 d else oopp (di_p3 d)) (vol S l)); (gl, gl, odivo (oopp (di_p3 d)) (vol S l))].
Definition all_entries (dim : Z) (S : lsys) (L : sylists) : list entry :=
  flat_map (inner_entries dim S) (sl_inner L) ++ flat_map (halo_entries dim S) (sl_halo L) ++ flat_map (dir_entries dim S) (sl_dir L).

Lemma emit_ok pre x rest r c v : emit (zlen pre, pre ++ x :: rest) r c v = Ok (zlen (pre ++ [(r, c, v)]), (pre ++ [(r, c, v)]) ++ rest).
Proof. unfold emit. cbn [fst snd]. rewrite set_app. cbn [bind]. rewrite zlen_app. reflexivity. Qed.
Lemma emit_past pre r c v : emit (zlen pre, pre ++ []) r c v = Err IndexError.
Proof. unfold emit. cbn [fst snd]. rewrite app_nil_r, set_past. reflexivity. Qed.

Section Wf.
Context (dim : Z) (S : lsys) (L : sylists) (nf nhg : Z) (WF : wf_lsys dim S L nf nhg).
Lemma D_len : zlen (sy_D S) = zlen (fd_cellid (sy_G S)).
Proof. pose proof (wy_D _ _ _ _ _ WF) as E. unfold face_gradient_info in E. apply mapM_zlen in E. rewrite E. apply zlen_range, zlen_nonneg. Qed.
Lemma nv_len : zlen (sy_nv S) = nbnodes S.
Proof. pose proof (wy_nv _ _ _ _ _ WF) as E. unfold variables in E. apply mapM_zlen in E. rewrite E. apply zlen_range, zlen_nonneg. Qed.
Lemma face_left_cell f : 0 <= f < zlen (fd_cellid (sy_G S)) -> get2 (fd_cellid (sy_G S)) f 0 = Ok (left_cell S f) /\ 0 <= left_cell S f < nbcells S.
Proof.
  intros Hf. destruct (wfa_face _ _ (wy_G _ _ _ _ _ WF) f Hf) as (A & B & _). destruct (wy_same _ _ _ _ _ WF) as (E & _). rewrite E in B.
  split; [|exact B]. apply (get2_nthZ 0); lia.
Qed.
Lemma face_right_cell f : In f (sl_inner L) -> get2 (fd_cellid (sy_G S)) f 1 = Ok (right_cell S f) /\ 0 <= right_cell S f < nbcells S.
Proof.
  intros Hf. destruct (wy_inner _ _ _ _ _ WF f Hf) as (Hf' & Hl). destruct (wfa_face _ _ (wy_G _ _ _ _ _ WF) f Hf') as (A & _ & _ & _ & B & _). destruct (wy_same _ _ _ _ _ WF) as (E & _). rewrite E in B.
  split; [|apply B; exact Hl]. apply (get2_nthZ 0); lia.
Qed.
Lemma face_nodes f : 0 <= f < zlen (fd_cellid (sy_G S)) -> get (fd_nodes (sy_G S)) f = Ok (nodes_of S f) /\ zlen (nodes_of S f) = dim /\ forall k, In k (nodes_of S f) -> 0 <= k < nbnodes S.
Proof.
  intros Hf. destruct (wfa_face _ _ (wy_G _ _ _ _ _ WF) f Hf) as (_ & _ & A & B & _). destruct (wfa_len _ _ (wy_G _ _ _ _ _ WF)) as (E & _). destruct (wy_same _ _ _ _ _ WF) as (_ & _ & E2).
  split; [apply get_nthZ; lia|]. split; [exact A|]. intros k Hk. apply B in Hk. lia.
Qed.
Lemma face_halo f : In f (sl_halo L) -> get (fd_halofid (sy_G S)) f = Ok (nthZ 0 (fd_halofid (sy_G S)) f) /\ 0 <= nthZ 0 (fd_halofid (sy_G S)) f < nbhalos S.
Proof.
  intros Hf. destruct (wy_halo _ _ _ _ _ WF f Hf) as (Hf' & Hl). destruct (wfa_face _ _ (wy_G _ _ _ _ _ WF) f Hf') as (_ & _ & _ & _ & _ & B). destruct (wfa_len _ _ (wy_G _ _ _ _ _ WF)) as (_ & _ & _ & _ & E & _).
  destruct (wy_same _ _ _ _ _ WF) as (_ & E2 & _). rewrite E2 in B. split; [apply get_nthZ; lia | apply B; exact Hl].
Qed.
Lemma get_vol c : 0 <= c < nbcells S -> get (sy_vol S) c = Ok (vol S c).
Proof. intros H. destruct (wy_len _ _ _ _ _ WF) as (A & _). apply get_nthZ. lia. Qed.
Lemma get_l2g c : 0 <= c < nbcells S -> get (sy_l2g S) c = Ok (global_cell S c).
Proof. intros H. destruct (wy_len _ _ _ _ _ WF) as (_ & A & _). apply get_nthZ. lia. Qed.
Lemma get_hext h : 0 <= h < nbhalos S -> get2 (sy_hext S) h 0 = Ok (global_halo S h).
Proof. intros H. destruct (wy_len _ _ _ _ _ WF) as (_ & _ & A). pose proof (wy_hext _ _ _ _ _ WF h H). apply (get2_nthZ 0); lia. Qed.
Lemma get_dia f : 0 <= f < zlen (fd_cellid (sy_G S)) -> get (sy_D S) f = Ok (dia S f).
Proof. intros H. apply get_nthZ. rewrite D_len. exact H. Qed.
Lemma get_nv k : 0 <= k < nbnodes S -> get (sy_nv S) k = Ok (nv_at S k).
Proof. intros H. apply get_nthZ. rewrite nv_len. exact H. Qed.

(** one point at one node *)
Definition rows_of (l : Z) (r : option Z) : side_row * option side_row := ((l, global_cell S l), match r with None => None | Some r => Some (r, global_cell S r) end).
Definition row_cells (l : Z) (r : option Z) : Prop := 0 <= l < nbcells S /\ match r with None => True | Some r => 0 <= r < nbcells S end.
Lemma node_entry_ok l r param col a pre rest : row_cells l r -> let es := pair_entries S l r param a col in
  (zlen es <= zlen rest -> node_entry S (fst (rows_of l r)) (snd (rows_of l r)) param col a (zlen pre, pre ++ rest) = Ok (zlen (pre ++ es), (pre ++ es) ++ skipn (length es) rest)) /\
  (zlen rest < zlen es -> node_entry S (fst (rows_of l r)) (snd (rows_of l r)) param col a (zlen pre, pre ++ rest) = Err IndexError).
Proof.
  unfold entry in *. intros (Hl & Hr). cbv zeta. unfold node_entry, rows_of. cbn [fst snd]. rewrite get_vol by exact Hl. cbn [bind].
  assert (ZP : forall l : list (Z * Z * option R), 0 <= zlen l) by (intros; apply zlen_nonneg).
  destruct rest as [|x rest].
  { rewrite emit_past. split; intros H; [|reflexivity]. unfold pair_entries in H. unfold entry in *. rewrite zlen_cons in H; change (@zlen (Z * Z * option R) []) with 0 in H. match goal with H : 1 + zlen ?l <= 0 |- _ => pose proof (ZP l) | H : zlen ?l + 1 <= 0 |- _ => pose proof (ZP l) end. lia. }
  rewrite emit_ok. cbn [bind]. pose proof (ZP rest). unfold pair_entries. unfold entry in *. destruct r as [r|].
  2: { split; [intros _; reflexivity | intros H'; rewrite !zlen_cons in H'; change (@zlen (Z * Z * option R) []) with 0 in H'; lia]. }
  cbn [fst snd]. rewrite get_vol by exact Hr. cbn [bind]. destruct rest as [|y rest].
  - rewrite emit_past. split; [intros H'; rewrite !zlen_cons in H'; change (@zlen (Z * Z * option R) []) with 0 in H'; lia | reflexivity].
  - rewrite emit_ok. pose proof (ZP rest). split; [intros _; rewrite <- !app_assoc; reflexivity | intros H'; rewrite !zlen_cons in H'; change (@zlen (Z * Z * option R) []) with 0 in H'; lia].
Qed.
End Wf.
