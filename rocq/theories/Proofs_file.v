(** * Proofs_file: lemmas for C08 *)
From Coq Require Import String Reals Permutation Sorting.Sorted.
From Verif Require Import Py PyLemmas Model_part Model_comm Model_file Spec_part Proofs_part1 Proofs_part2 Proofs_part3 Proofs_comm Proofs_part4.
Open Scope Z_scope.

Lemma for_line_map {S X} (body : S -> line -> res (S * bool)) (mk : X -> line) (f : S -> X -> S) l rest s :
  (forall s x, body s (mk x) = Ok (f s x, false)) ->
  for_line body (map mk l ++ rest) s = for_line body rest (fold_left f l s).
Proof. intros H. revert s; induction l as [|x l IH]; intros s; cbn; [reflexivity|]. rewrite H; cbn. apply IH. Qed.

Lemma fold_snoc {A B} (g : A -> B) l acc : fold_left (fun h x => h ++ [g x]) l acc = acc ++ map g l.
Proof. revert acc; induction l as [|x l IH]; intros acc; cbn; [rewrite app_nil_r; reflexivity|]. rewrite IH, <- app_assoc. reflexivity. Qed.

Lemma mapM_tok_int l : mapM tok_int (map TI l) = Ok l.
Proof. induction l as [|x l IH]; cbn; [reflexivity|]. rewrite IH; reflexivity. Qed.
Lemma mapM_tok_float l : mapM tok_float (map TR l) = Ok l.
Proof. induction l as [|x l IH]; cbn; [reflexivity|]. rewrite IH; reflexivity. Qed.

(** reading one section of each kind, followed by [rest] *)
Lemma rd_tc l rest acc : for_line body_tc (map (fun c => ints [c]) l ++ rest) acc = for_line body_tc rest (acc ++ l).
Proof.
  rewrite (for_line_map _ _ (fun h x => h ++ [x])).
  - rewrite (fold_snoc (fun x => x)), map_id. reflexivity.
  - reflexivity.
Qed.
Lemma rd_elements l rest acc : for_line body_elements (map ints l ++ rest) acc = for_line body_elements rest (acc ++ l).
Proof.
  rewrite (for_line_map _ _ (fun h x => h ++ [x])).
  - rewrite (fold_snoc (fun x => x)), map_id. reflexivity.
  - intros s x. unfold body_elements, ints; cbn -[mapM]. rewrite mapM_tok_int. reflexivity.
Qed.
Definition node_row (n : pt * Z) : list R := [px (fst n); py (fst n); pz (fst n); IZR (snd n)].
Lemma rd_nodes l rest acc : for_line body_nodes (map node_line l ++ rest) acc = for_line body_nodes rest (acc ++ map node_row l).
Proof.
  rewrite (for_line_map _ _ (fun h x => h ++ [node_row x])).
  - rewrite (fold_snoc node_row). reflexivity.
  - reflexivity.
Qed.
Lemma rd_halosint l rest acc : for_line body_halosint (map (fun c => ints [c]) l ++ rest) acc = for_line body_halosint rest (acc ++ l).
Proof.
  rewrite (for_line_map _ _ (fun h x => h ++ [x])).
  - rewrite (fold_snoc (fun x => x)), map_id. reflexivity.
  - reflexivity.
Qed.
Lemma rd_halosext l rest acc : for_line body_halosext (map ints l ++ rest) acc = for_line body_halosext rest (acc ++ l).
Proof.
  rewrite (for_line_map _ _ (fun h x => h ++ [x])).
  - rewrite (fold_snoc (fun x => x)), map_id. reflexivity.
  - intros s x. unfold body_halosext, ints; cbn -[mapM]. rewrite mapM_tok_int. reflexivity.
Qed.
Lemma rd_centvol l rest acc : for_line body_centvol (map (fun r => LT (map TR r)) l ++ rest) acc = for_line body_centvol rest (acc ++ l).
Proof.
  rewrite (for_line_map _ _ (fun h x => h ++ [x])).
  - rewrite (fold_snoc (fun x => x)), map_id. reflexivity.
  - intros s x. unfold body_centvol; cbn -[mapM]. rewrite mapM_tok_float. reflexivity.
Qed.
Lemma rd_nl2g l rest acc : for_line body_nl2g (map (fun c => ints [c]) l ++ rest) acc = for_line body_nl2g rest (acc ++ l).
Proof.
  rewrite (for_line_map _ _ (fun h x => h ++ [x])).
  - rewrite (fold_snoc (fun x => x)), map_id. reflexivity.
  - reflexivity.
Qed.
Lemma rd_neigh l rest acc : for_line body_neigh (map ints l ++ rest) acc = for_line body_neigh rest (acc ++ l).
Proof.
  rewrite (for_line_map _ _ (fun h x => h ++ [x])).
  - rewrite (fold_snoc (fun x => x)), map_id. reflexivity.
  - intros s x. unfold body_neigh, ints; cbn -[mapM]. rewrite mapM_tok_int. reflexivity.
Qed.
Lemma rd_nparts l rest acc : for_line body_nparts (map ints l ++ rest) acc = for_line body_nparts rest (acc ++ l).
Proof.
  rewrite (for_line_map _ _ (fun h x => h ++ [x])).
  - rewrite (fold_snoc (fun x => x)), map_id. reflexivity.
  - intros s x. unfold body_nparts, ints; cbn -[mapM]. rewrite mapM_tok_int. reflexivity.
Qed.
Lemma rd_l2g l rest d acc n :
  for_line body_l2g (map (fun c => ints [c]) l ++ rest) (d, acc, n)
  = for_line body_l2g rest (snd (fold_left (fun '(cmpt, d) c => (cmpt + 1, zset d c cmpt)) l (n, d)), acc ++ l, n + zlen l).
Proof.
  revert d acc n; induction l as [|x l IH]; intros d acc n; cbn -[for_line zlen].
  - rewrite app_nil_r, zlen_nil, Z.add_0_r. reflexivity.
  - cbn -[zlen]. rewrite IH. rewrite <- app_assoc, zlen_cons. replace (n + 1 + zlen l) with (n + (zlen l + 1)) by lia. reflexivity.
Qed.

(** the for-loops' behaviour on the keyword lines *)
Lemma fl_skip {S} (body : S -> line -> res (S * bool)) l rest s :
  body s l = Ok (s, false) -> for_line body (l :: rest) s = for_line body rest s.
Proof. intros H; cbn; rewrite H; reflexivity. Qed.
Lemma fl_stop {S} (body : S -> line -> res (S * bool)) l rest s :
  body s l = Ok (s, true) -> for_line body (l :: rest) s = Ok (s, rest).
Proof. intros H; cbn; rewrite H; reflexivity. Qed.

Ltac kw := repeat (rewrite fl_skip by reflexivity).

(** the tail of a rank file, from the line after "halosint" *)
Definition tail_md (tc : list Z) (nodeid : list (list Z)) (vertex : list (list R)) (f : rankfile) (nparts : list (list Z)) : meshdata :=
  {| md_tc := tc; md_nodeid := nodeid; md_vertex := vertex; md_halosint := rf_halosint f; md_halosext := rf_halosext f;
     md_centvol := rf_centvol f; md_globtoloc := globtoloc (rf_loctoglob f); md_loctoglob := rf_loctoglob f;
     md_nodeloctoglob := rf_nodeloctoglob f; md_neigh := [rf_neigh f; rf_neighcount f]; md_nparts := nparts |}.

Lemma read_write_rank size rank tc f nparts :
  1 < size ->
  read_mesh_file size rank ((if rank =? 0 then write_gtol tc else []) ++ write_rank f) (section "nodeparts" "endnodeparts" (map ints nparts))
  = Ok (tail_md (if rank =? 0 then tc else []) (rf_elements f) (map node_row (rf_nodes f)) f nparts).
Proof.
  intros Hs. unfold read_mesh_file. replace (1 <? size) with true by lia. replace (size =? 1) with false by lia. cbn [andb].
  assert (Hpre : forall rest, exists rest',
     (if rank =? 0 then for_line body_tc ((if rank =? 0 then write_gtol tc else []) ++ LK "elements" :: rest) []
      else Ok ([], (if rank =? 0 then write_gtol tc else []) ++ LK "elements" :: rest))
     = Ok (if rank =? 0 then tc else [], rest') /\ (rest' = rest \/ rest' = LK "elements" :: rest)).
  { intros rest. destruct (rank =? 0).
    - exists rest. split; [|left; reflexivity]. unfold write_gtol, section. cbn [app]. rewrite fl_skip by reflexivity.
      rewrite <- app_assoc, rd_tc. cbn [app]. rewrite fl_skip by reflexivity. rewrite fl_stop by reflexivity. reflexivity.
    - exists (LK "elements" :: rest). split; [reflexivity|right; reflexivity]. }
  pose (REST := ((map ints (rf_elements f) ++ [LK "endelements"]) ++
      section "nodes" "endnodes" (map node_line (rf_nodes f)) ++
      section "halosint" "endhalosint" (map (fun c => ints [c]) (rf_halosint f)) ++
      section "halosext" "endhalosext" (map ints (rf_halosext f)) ++
      section "centvol" "endcentvol" (map (fun r => LT (map TR r)) (rf_centvol f)) ++
      section "globalcelltolocal" "endglobalcelltolocal" (map (fun c => ints [c]) (rf_loctoglob f)) ++
      section "localnodetoglobal" "endlocalnodetoglobal" (map (fun c => ints [c]) (rf_nodeloctoglob f)) ++
      section "neigh" "endneigh" [ints (rf_neigh f); ints (rf_neighcount f)])).
  assert (EW : write_rank f = LK "elements" :: REST) by reflexivity. rewrite EW. clear EW.
  destruct (Hpre REST) as (rest' & E & Hr).
  unfold bind at 1. rewrite E. clear E Hpre.
  assert (E1 : for_line body_elements rest' [] = for_line body_elements (LK "elements" :: REST) []).
  { destruct Hr as [-> | ->]; [symmetry; apply fl_skip; reflexivity | reflexivity]. }
  rewrite E1. clear E1 Hr rest'. unfold REST, section.
  rewrite fl_skip by reflexivity. rewrite <- app_assoc, rd_elements. cbn [app]. rewrite fl_skip by reflexivity. rewrite fl_stop by reflexivity.
  cbn [bind]. rewrite <- app_assoc, rd_nodes. cbn [app]. rewrite fl_skip by reflexivity. rewrite fl_stop by reflexivity.
  cbn [bind]. rewrite <- app_assoc, rd_halosint. cbn [app]. rewrite fl_stop by reflexivity.
  cbn [bind]. rewrite fl_skip by reflexivity. rewrite <- app_assoc, rd_halosext. cbn [app]. rewrite fl_skip by reflexivity. rewrite fl_stop by reflexivity.
  cbn [bind]. rewrite <- app_assoc, rd_centvol. cbn [app]. rewrite fl_skip by reflexivity. rewrite fl_stop by reflexivity.
  cbn [bind]. rewrite <- app_assoc, rd_l2g. cbn [app]. rewrite fl_stop by reflexivity.
  cbn [bind]. rewrite fl_skip by reflexivity. rewrite <- app_assoc, rd_nl2g. cbn [app]. rewrite fl_stop by reflexivity.
  cbn [bind]. rewrite fl_skip by reflexivity.
  change [ints (rf_neigh f); ints (rf_neighcount f); LK "endneigh"] with (map ints [rf_neigh f; rf_neighcount f] ++ [LK "endneigh"]).
  rewrite rd_neigh. cbn [app]. rewrite fl_stop by reflexivity.
  cbn [bind]. rewrite fl_skip by reflexivity. rewrite rd_nparts. cbn [app]. rewrite fl_stop by reflexivity.
  cbn [bind]. unfold tail_md, globtoloc. reflexivity.
Qed.

Lemma read_write_seq rank cells nodes ghost master :
  zlen nodes = zlen ghost ->
  read_mesh_file 1 rank (write_seq cells nodes ghost) master
  = Ok {| md_tc := range (zlen cells); md_nodeid := cells; md_vertex := map node_row (combine nodes ghost);
          md_halosint := []; md_halosext := []; md_centvol := []; md_globtoloc := []; md_loctoglob := [];
          md_nodeloctoglob := []; md_neigh := []; md_nparts := [] |}.
Proof.
  intros _. unfold read_mesh_file, write_seq, section. change (1 <? 1) with false. change (1 =? 1) with true. cbn [andb bind app].
  rewrite fl_skip by reflexivity. rewrite <- app_assoc, rd_elements. cbn [app]. rewrite fl_skip by reflexivity. rewrite fl_stop by reflexivity.
  cbn [bind]. rewrite rd_nodes. cbn [app]. rewrite fl_skip by reflexivity. cbn [for_line bind]. reflexivity.
Qed.

(** the dictionary global -> local *)
Lemma globtoloc_iff l c j : NoDup l -> (zget_opt (globtoloc l) c = Some j <-> 0 <= j < zlen l /\ nthZ (-1) l j = c).
Proof.
  intros Hn.
  assert (G : forall l n (d : dictZ Z), NoDup l ->
     zget_opt (snd (fold_left (fun '(cmpt, d) c => (cmpt + 1, zset d c cmpt)) l (n, d))) c
     = match find (fun k => nthZ (-1) l k =? c) (range (zlen l)) with Some k => Some (n + k) | None => zget_opt d c end).
  { clear. intros l. induction l as [|x l IH] using rev_ind; intros n d Hn; [reflexivity|].
    rewrite fold_left_app. cbn [fold_left].
    assert (Hf : forall l n (d : dictZ Z), fst (fold_left (fun '(cmpt, d) c => (cmpt + 1, zset d c cmpt)) l (n, d)) = n + zlen l).
    { clear. induction l as [|x l IH]; intros n d; cbn -[zlen]; [rewrite zlen_nil; lia|]. rewrite IH, zlen_cons. lia. }
    specialize (Hf l n d).
    assert (Hn' : NoDup l) by (apply NoDup_remove_1 in Hn; rewrite app_nil_r in Hn; exact Hn). specialize (IH n d Hn').
    destruct (fold_left _ l (n, d)) as [n' d'] eqn:E. cbn in Hf, IH |- *. subst n'.
    rewrite zget_opt_zset, IH. rewrite zlen_app, zlen_cons, zlen_nil. rewrite Z.add_0_l, range_succ by apply zlen_nonneg.
    assert (FA : forall (f : Z -> bool) a b, find f (a ++ b) = match find f a with Some x => Some x | None => find f b end).
    { clear. induction a as [|y a IHa]; intros b; cbn; [reflexivity|]. destruct (f y); [reflexivity|apply IHa]. }
    rewrite FA. 
    assert (FE : find (fun k => nthZ (-1) (l ++ [x]) k =? c) (range (zlen l)) = find (fun k => nthZ (-1) l k =? c) (range (zlen l))).
    { assert (HH : forall r, (forall k, In k r -> 0 <= k < zlen l) -> find (fun k => nthZ (-1) (l ++ [x]) k =? c) r = find (fun k => nthZ (-1) l k =? c) r).
      { clear. induction r as [|k r IHr]; intros Hr; cbn; [reflexivity|]. rewrite nthZ_app_l by (apply Hr; left; reflexivity).
        rewrite IHr by (intros; apply Hr; right; assumption). reflexivity. }
      apply HH. intros k Hk. apply in_range; exact Hk. }
    rewrite FE. cbn [find]. rewrite nthZ_app_last.
    destruct (Z.eqb_spec x c) as [->|Hne].
    - destruct (find _ (range (zlen l))) as [k|] eqn:Ef; [|reflexivity].
      apply find_some in Ef as (Hk & Ek). apply in_range in Hk. apply Z.eqb_eq in Ek.
      exfalso. apply NoDup_remove_2 in Hn. apply Hn. rewrite app_nil_r. rewrite <- Ek. apply nthZ_In; exact Hk.
    - destruct (find _ (range (zlen l))); reflexivity. }
  unfold globtoloc. rewrite G by exact Hn. cbn.
  destruct (find _ _) as [k|] eqn:Ef.
  - apply find_some in Ef as (Hk & Ek). apply in_range in Hk. apply Z.eqb_eq in Ek. split.
    + intros [= <-]. split; [exact Hk | exact Ek].
    + intros (Hj & Ej). f_equal. 
      destruct (Z.eq_dec k j) as [->|Hne]; [reflexivity|]. exfalso.
      apply Hne. apply Z2Nat.inj; try lia. apply (proj1 (NoDup_nth l (-1)) Hn); unfold zlen, nthZ in *; first [lia | congruence].
  - split; [discriminate|]. intros (Hj & Ej). exfalso. pose proof (find_none _ _ Ef j) as HN.
    cbv beta in HN. rewrite in_range in HN. specialize (HN Hj). apply Z.eqb_neq in HN. congruence.
Qed.

Lemma c08 dim SIZE cells nodes ghost npart0 epart pa :
  1 < SIZE ->
  wf_input dim SIZE cells nodes ghost npart0 epart ->
  metis_contract cells nodes npart0 epart ->
  readmesh_parallel dim SIZE cells nodes ghost npart0 epart = Ok pa ->
  forall i, 0 <= i < SIZE ->
    let f := file_of empty_file pa i in
    exists file md, write_file pa i = Ok file /\ read_mesh_file SIZE i file (write_master pa) = Ok md /\
      md_tc md = (if i =? 0 then pa_tc pa else []) /\
      md_nodeid md = rf_elements f /\
      md_vertex md = map (fun n => [px (fst n); py (fst n); pz (fst n); IZR (snd n)]) (rf_nodes f) /\
      md_halosint md = rf_halosint f /\ md_halosext md = rf_halosext f /\ md_centvol md = rf_centvol f /\
      md_loctoglob md = rf_loctoglob f /\ md_nodeloctoglob md = rf_nodeloctoglob f /\
      md_neigh md = [rf_neigh f; rf_neighcount f] /\ md_nparts md = pa_nparts pa /\
      (forall c j, zget_opt (md_globtoloc md) c = Some j <-> 0 <= j < zlen (rf_loctoglob f) /\ nthZ (-1) (rf_loctoglob f) j = c).
Proof.
  intros HS WF MC E i Hi f. destruct (readmesh_inv _ _ _ _ _ _ _ _ WF MC E) as (_ & HL & H).
  unfold write_file. rewrite (get_nthZ empty_file) by lia. cbn [bind]. eexists. eexists. split; [reflexivity|].
  split; [apply read_write_rank; exact HS|]. repeat (split; [reflexivity|]). intros c j. cbn. apply globtoloc_iff.
  unfold f, file_of. pose proof (fo_l2g _ _ _ _ _ _ _ (H i Hi)) as El. unfold file_of in El. rewrite El. apply sorted_lt_NoDup, sorted_lt_filter, Sorted_lt_range.
Qed.
