(** * Proofs_linsys6: the right-hand side (C39, C40). *)
From Verif Require Import Py PyLemmas Model_part Model_conn Spec_conn Model_geom Spec_geom Model_halo Model_interp Spec_interp Proofs_conn1 Proofs_interp1 Proofs_interp2 Proofs_interp4 Model_bc Model_linsys Spec_linsys Proofs_linsys1 Proofs_linsys2 Proofs_linsys3 Proofs_linsys4 Proofs_linsys5 Proofs_fvm1 Proofs_fvm2.
From Coq Require Import ZifyBool Permutation Lra.
Open Scope Z_scope.

Lemma foldM_flat_map {A B C} (g : A -> B -> res A) (e : C -> list B) l s : foldM g (flat_map e l) s = foldM (fun s x => foldM g (e x) s) l s.
Proof. revert s. induction l as [|x l IH]; intros s; cbn [flat_map foldM]; [reflexivity|]. rewrite foldM_app. destruct (foldM g (e x) s); [apply IH | reflexivity]. Qed.
Lemma search_one S k : (search_element (sy_bcd S) (nthZ 0 (nd_old (sy_N S)) k) =? 1) = is_dir S k.
Proof. unfold search_element, is_dir. destruct (mem _ _); reflexivity. Qed.

Lemma chain3 {A T X} (g : A -> T -> res A) (F1 F2 F3 : A -> X -> res A) e1 e2 e3 l1 l2 l3 s :
  (forall s x, In x l1 -> F1 s x = foldM g (e1 x) s) -> (forall s x, In x l2 -> F2 s x = foldM g (e2 x) s) -> (forall s x, In x l3 -> F3 s x = foldM g (e3 x) s) ->
  (do s <- foldM F1 l1 s; do s <- foldM F2 l2 s; foldM F3 l3 s) = foldM g (flat_map e1 l1 ++ flat_map e2 l2 ++ flat_map e3 l3) s.
Proof.
  intros H1 H2 H3. rewrite foldM_app, foldM_flat_map. rewrite (foldM_ext F1 (fun s x => foldM g (e1 x) s) l1) by (intros; apply H1; assumption).
  destruct (foldM _ l1 s) as [s1|]; [cbn [bind]|reflexivity]. rewrite foldM_app, foldM_flat_map. rewrite (foldM_ext F2 (fun s x => foldM g (e2 x) s) l2) by (intros; apply H2; assumption).
  destruct (foldM _ l2 s1) as [s2|]; [cbn [bind]|reflexivity]. rewrite foldM_flat_map. apply foldM_ext. intros; apply H3; assumption.
Qed.
Section Rhs.
Context (dim : Z) (S : lsys) (L : sylists) (nf nhg : Z) (B : bord).
(** the additions to the right-hand side, cell by cell, in the order of the code *)
Definition node_adds (l : Z) (r : option Z) (p : option R) (k : Z) : list (Z * option R) :=
  let V := nthZ 0%R (pb_node B) k in
  (l, rhs_left V p (vol S l)) :: match r with Some r => [(r, rhs_right V p (vol S r))] | None => [] end.
Definition inner_adds (f : Z) : list (Z * option R) :=
  flat_map (fun pn => if is_dir S (snd pn) then node_adds (left_cell S f) (Some (right_cell S f)) (fst pn) (snd pn) else []) (weighted_nodes dim S f).
Definition halo_adds (f : Z) : list (Z * option R) :=
  flat_map (fun pn => if is_dir S (snd pn) then node_adds (left_cell S f) None (fst pn) (snd pn) else []) (weighted_nodes dim S f).
Definition dir_adds (f : Z) : list (Z * option R) :=
  flat_map (fun pn => node_adds (left_cell S f) None (fst pn) (snd pn)) (weighted_nodes dim S f) ++ [(left_cell S f, rhs_face (di_p3 (dia S f)) (vol S (left_cell S f)) (nthZ 0%R (pb_face B) f))].
Definition all_adds : list (Z * option R) := flat_map inner_adds (sl_inner L) ++ flat_map halo_adds (sl_halo L) ++ flat_map dir_adds (sl_dir L).
Definition addk (key : Z -> Z) (rhs : list (option R)) (iv : Z * option R) : res (list (option R)) := oadd_at rhs (key (fst iv)) (snd iv).
End Rhs.

Section Loops.
Context (dim : Z) (S : lsys) (L : sylists) (nf nhg : Z) (WF : wf_lsys dim S L nf nhg) (B : bord) (WB : wf_bord S L B).
Lemma get_pb k : 0 <= k < nbnodes S -> get (pb_node B) k = Ok (nthZ 0%R (pb_node B) k).
Proof. intros H. destruct WB as (E & _). apply get_nthZ. lia. Qed.
Lemma get_old k : 0 <= k < nbnodes S -> get (nd_old (sy_N S)) k = Ok (nthZ 0 (nd_old (sy_N S)) k).
Proof. intros H. destruct (wn_len _ _ _ _ (wy_N _ _ _ _ _ WF)) as (E & _). apply get_nthZ. unfold nbnodes in H. lia. Qed.
Lemma get_ghost0 k : 0 <= k < nbnodes S -> get2 (nd_ghost (sy_N S)) k 0 = Ok (nthZ gpad (nthZ [] (nd_ghost (sy_N S)) k) 0).
Proof.
  intros H. destruct (wn_len _ _ _ _ (wy_N _ _ _ _ _ WF)) as (_ & _ & _ & E & _). destruct (wn_ghost _ _ _ _ (wy_N _ _ _ _ _ WF) k H) as (G & _). apply (get2_nthZ gpad); [unfold nbnodes in H; lia | lia].
Qed.
Lemma ghost0_real f k : In f (sl_dir L) -> In k (nodes_of S f) -> (g_cell (nthZ gpad (nthZ [] (nd_ghost (sy_N S)) k) 0) =? -1) = false.
Proof. intros Hf Hk. destruct WB as (_ & _ & H). apply Z.eqb_neq. apply (H f); assumption. Qed.
Lemma get_pf f : 0 <= f < zlen (fd_cellid (sy_G S)) -> get (pb_face B) f = Ok (nthZ 0%R (pb_face B) f).
Proof. intros H. destruct WB as (_ & E & _). apply get_nthZ. lia. Qed.
Lemma get2_nodes f j : 0 <= f < zlen (fd_cellid (sy_G S)) -> 0 <= j < dim -> get2 (fd_nodes (sy_G S)) f j = Ok (nthZ 0 (nodes_of S f) j) /\ 0 <= nthZ 0 (nodes_of S f) j < nbnodes S /\ In (nthZ 0 (nodes_of S f) j) (nodes_of S f).
Proof.
  intros Hf Hj. destruct (face_nodes dim S L nf nhg WF f Hf) as (E & HL & HK). assert (HI : In (nthZ 0 (nodes_of S f) j) (nodes_of S f)) by (apply nthZ_In; lia). split; [|split; [apply HK; exact HI | exact HI]]. unfold get2. rewrite E. cbn [bind]. apply get_nthZ. lia.
Qed.
End Loops.


Ltac same_binds := repeat match goal with
  | |- ?a = ?a => reflexivity
  | |- (do x <- ?m; _) = (do y <- ?m; _) => destruct m; cbn [bind]; [|reflexivity]
  | |- (do x <- ?m; Ok x) = _ => replace (do x <- m; Ok x) with m by (destruct m; reflexivity)
  | |- _ = (do x <- ?m; Ok x) => replace (do x <- m; Ok x) with m by (destruct m; reflexivity)
  | |- _ => progress rewrite ?bind_assoc
  end.
Section Two.
Context (S : lsys) (L : sylists) (nf nhg : Z) (WF : wf_lsys 2 S L nf nhg) (B : bord) (WB : wf_bord S L B).
Ltac dirs2 := unfold node_adds, addk; match goal with |- context [is_dir S (nthZ 0 (nodes_of S ?f) 0)] => destruct (is_dir S (nthZ 0 (nodes_of S f) 0)), (is_dir S (nthZ 0 (nodes_of S f) 1)) | |- _ => idtac end; cbn [app foldM fst snd bind]; same_binds.
Ltac prep2 Hf' f :=
  destruct (face_left_cell 2 S L nf nhg WF f Hf') as (E1 & B1);
  destruct (get2_nodes 2 S L nf nhg WF f 0 Hf' ltac:(lia)) as (N0 & K0 & I0); destruct (get2_nodes 2 S L nf nhg WF f 1 Hf' ltac:(lia)) as (N1 & K1 & I1);
  rewrite ?E1, ?N0, ?N1; cbn [bind]; rewrite ?(get_l2g 2 S L nf nhg WF) by assumption; cbn [bind]; rewrite ?E1, ?N0, ?N1; cbn [bind].
Ltac more2 Hf' f :=
  rewrite (get_dia 2 S L nf nhg WF f Hf'), !(get_vol 2 S L nf nhg WF) by assumption; rewrite ?(get_old 2 S L nf nhg WF), ?(get_ghost0 2 S L nf nhg WF) by assumption; cbn [bind]; rewrite ?search_one, ?(get_pb S L B WB) by assumption; cbn [bind].
Lemma rhs_loc_2d rhs : get_rhs_loc_2d S L B rhs = foldM (addk (fun c => c)) (all_adds 2 S L B) rhs.
Proof.
  unfold get_rhs_loc_2d, all_adds. cbv zeta. apply chain3; intros s f Hf.
  - destruct (wy_inner _ _ _ _ _ WF f Hf) as (Hf' & _). destruct (face_right_cell 2 S L nf nhg WF f Hf) as (E2 & B2). rewrite E2. cbn [bind]. prep2 Hf' f. more2 Hf' f.
    unfold inner_adds, weighted_nodes. cbv zeta. cbn [Z.eqb Pos.eqb flat_map fst snd]. dirs2.
  - destruct (wy_halo _ _ _ _ _ WF f Hf) as (Hf' & _). prep2 Hf' f. more2 Hf' f. unfold halo_adds, weighted_nodes. cbv zeta. cbn [Z.eqb Pos.eqb flat_map fst snd]. dirs2.
  - destruct (wy_dir _ _ _ _ _ WF f Hf) as (Hf' & _). prep2 Hf' f. more2 Hf' f. rewrite (ghost0_real S L B WB f _ Hf I0), (ghost0_real S L B WB f _ Hf I1). rewrite (get_pf S L B WB f Hf').
    unfold dir_adds, weighted_nodes. cbv zeta. cbn [Z.eqb Pos.eqb flat_map fst snd]. dirs2.
Qed.
Lemma rhs_glob_2d rhs : get_rhs_glob_2d S L B rhs = foldM (addk (global_cell S)) (all_adds 2 S L B) rhs.
Proof.
  unfold get_rhs_glob_2d, all_adds. cbv zeta. apply chain3; intros s f Hf.
  - destruct (wy_inner _ _ _ _ _ WF f Hf) as (Hf' & _). destruct (face_right_cell 2 S L nf nhg WF f Hf) as (E2 & B2). prep2 Hf' f. rewrite E2. cbn [bind]. rewrite ?(get_l2g 2 S L nf nhg WF) by assumption. cbn [bind]. more2 Hf' f.
    unfold inner_adds, weighted_nodes. cbv zeta. cbn [Z.eqb Pos.eqb flat_map fst snd]. dirs2.
  - destruct (wy_halo _ _ _ _ _ WF f Hf) as (Hf' & _). prep2 Hf' f. more2 Hf' f. unfold halo_adds, weighted_nodes. cbv zeta. cbn [Z.eqb Pos.eqb flat_map fst snd]. dirs2.
  - destruct (wy_dir _ _ _ _ _ WF f Hf) as (Hf' & _). prep2 Hf' f. more2 Hf' f. rewrite (ghost0_real S L B WB f _ Hf I0), (ghost0_real S L B WB f _ Hf I1). rewrite (get_pf S L B WB f Hf').
    unfold dir_adds, weighted_nodes. cbv zeta. cbn [Z.eqb Pos.eqb flat_map fst snd]. dirs2.
Qed.
End Two.

Section Three.
Context (S : lsys) (L : sylists) (nf nhg : Z) (WF : wf_lsys 3 S L nf nhg) (B : bord) (WB : wf_bord S L B).
Lemma over3 d f F rhs : 0 <= f < zlen (fd_cellid (sy_G S)) -> d = dia S f -> over_nodes3 S d f F rhs = foldM (fun rhs pn => F rhs (fst pn) (snd pn)) (weighted_nodes 3 S f) rhs.
Proof.
  intros Hf ->. unfold over_nodes3. destruct (get2_nodes 3 S L nf nhg WF f 0 Hf ltac:(lia)) as (-> & _). destruct (get2_nodes 3 S L nf nhg WF f 1 Hf ltac:(lia)) as (-> & _). destruct (get2_nodes 3 S L nf nhg WF f 2 Hf ltac:(lia)) as (-> & _). cbn [bind].
  unfold weighted_nodes. cbv zeta. set (d := dia S f). cbn [Z.eqb Pos.eqb foldM fst snd]. set (ps := [di_p1 d; di_p2 d; oopp (di_p1 d); oopp (di_p2 d)]). change (get ps 0) with (Ok (di_p1 d)). cbn [bind].
  destruct (F rhs (di_p1 d) _) as [s1|]; [|reflexivity]. cbn [bind fst snd]. change (get ps (0 + 1)) with (Ok (di_p2 d)). cbn [bind].
  destruct (F s1 (di_p2 d) _) as [s2|]; [|reflexivity]. cbn [bind fst snd]. change (get ps (0 + 1 + 1)) with (Ok (oopp (di_p1 d))). cbn [bind].
  destruct (F s2 (oopp (di_p1 d)) _) as [s3|]; [|reflexivity]. cbn [bind fst snd]. change (get ps (0 + 1 + 1 + 1)) with (Ok (oopp (di_p2 d))). cbn [bind].
  destruct (F s3 (oopp (di_p2 d)) _) as [s4|]; reflexivity.
Qed.
Lemma wnodes f pn : 0 <= f < zlen (fd_cellid (sy_G S)) -> In pn (weighted_nodes 3 S f) -> 0 <= snd pn < nbnodes S /\ In (snd pn) (nodes_of S f).
Proof.
  intros Hf H. unfold weighted_nodes in H. cbv zeta in H. cbn [Z.eqb Pos.eqb] in H.
  destruct (get2_nodes 3 S L nf nhg WF f 0 Hf ltac:(lia)) as (_ & A0 & I0). destruct (get2_nodes 3 S L nf nhg WF f 1 Hf ltac:(lia)) as (_ & A1 & I1). destruct (get2_nodes 3 S L nf nhg WF f 2 Hf ltac:(lia)) as (_ & A2 & I2).
  repeat (destruct H as [<-|H]; [cbn [snd]; split; assumption|]). destruct H.
Qed.
Ltac prep3 Hf' f :=
  destruct (face_left_cell 3 S L nf nhg WF f Hf') as (E1 & B1); rewrite E1; cbn [bind]; rewrite ?(get_l2g 3 S L nf nhg WF) by assumption; cbn [bind].
Ltac more3 Hf' f := rewrite (get_dia 3 S L nf nhg WF f Hf'), !(get_vol 3 S L nf nhg WF) by assumption; cbn [bind]; rewrite (over3 _ f) by first [exact Hf' | reflexivity].
Ltac nodes3t Hf' f := rewrite foldM_flat_map; apply foldM_ext; intros s' pn Hpn; destruct (wnodes f pn Hf' Hpn) as (Kp & Ip); rewrite ?(get_old 3 S L nf nhg WF), ?(get_ghost0 3 S L nf nhg WF) by assumption; cbn [bind]; rewrite ?search_one, ?(get_pb S L B WB) by assumption; cbn [bind].
Lemma rhs_loc_3d rhs : get_rhs_loc_3d S L B rhs = foldM (addk (fun c => c)) (all_adds 3 S L B) rhs.
Proof.
  unfold get_rhs_loc_3d, all_adds. cbv zeta. apply chain3; intros s f Hf.
  - destruct (wy_inner _ _ _ _ _ WF f Hf) as (Hf' & _). destruct (face_right_cell 3 S L nf nhg WF f Hf) as (E2 & B2). prep3 Hf' f. rewrite E2. cbn [bind]. more3 Hf' f.
    unfold inner_adds. nodes3t Hf' f. unfold node_adds, addk. destruct (is_dir S (snd pn)); cbn [foldM fst snd]; same_binds.
  - destruct (wy_halo _ _ _ _ _ WF f Hf) as (Hf' & _). prep3 Hf' f. more3 Hf' f.
    unfold halo_adds. nodes3t Hf' f. unfold node_adds, addk. destruct (is_dir S (snd pn)); cbn [foldM fst snd]; same_binds.
  - destruct (wy_dir _ _ _ _ _ WF f Hf) as (Hf' & _). prep3 Hf' f. more3 Hf' f. rewrite (get_pf S L B WB f Hf'). cbn [bind].
    unfold dir_adds. rewrite foldM_app. cbn [foldM]. unfold addk at 2. cbn [fst snd]. 
    match goal with |- (do a <- ?x; _) = (do b <- ?y; _) => assert (E : x = y) end; [|rewrite E; clear E; match goal with |- (do a <- ?m; _) = _ => destruct m end; cbn [bind]; [same_binds | reflexivity]].
    nodes3t Hf' f. rewrite (ghost0_real S L B WB f _ Hf Ip). unfold node_adds, addk. cbn [foldM fst snd]; same_binds.
Qed.
Lemma rhs_glob_3d rhs : get_rhs_glob_3d S L B rhs = foldM (addk (global_cell S)) (all_adds 3 S L B) rhs.
Proof.
  unfold get_rhs_glob_3d, all_adds. cbv zeta. apply chain3; intros s f Hf.
  - destruct (wy_inner _ _ _ _ _ WF f Hf) as (Hf' & _). destruct (face_right_cell 3 S L nf nhg WF f Hf) as (E2 & B2). prep3 Hf' f. rewrite E2. cbn [bind]. rewrite ?(get_l2g 3 S L nf nhg WF) by assumption. cbn [bind]. more3 Hf' f.
    unfold inner_adds. nodes3t Hf' f. unfold node_adds, addk. destruct (is_dir S (snd pn)); cbn [foldM fst snd]; same_binds.
  - destruct (wy_halo _ _ _ _ _ WF f Hf) as (Hf' & _). prep3 Hf' f. more3 Hf' f.
    unfold halo_adds. nodes3t Hf' f. unfold node_adds, addk. destruct (is_dir S (snd pn)); cbn [foldM fst snd]; same_binds.
  - destruct (wy_dir _ _ _ _ _ WF f Hf) as (Hf' & _). prep3 Hf' f. more3 Hf' f. rewrite (get_pf S L B WB f Hf'). cbn [bind].
    unfold dir_adds. rewrite foldM_app. cbn [foldM]. unfold addk at 2. cbn [fst snd].
    match goal with |- (do a <- ?x; _) = (do b <- ?y; _) => assert (E : x = y) end; [|rewrite E; clear E; match goal with |- (do a <- ?m; _) = _ => destruct m end; cbn [bind]; [same_binds | reflexivity]].
    nodes3t Hf' f. rewrite (ghost0_real S L B WB f _ Hf Ip). unfold node_adds, addk. cbn [foldM fst snd]; same_binds.
Qed.
End Three.
