(** * Proofs_haloghost: the exchange of the ghosts of halo nodes. *)
From Coq Require Import Reals.
From Verif Require Import Py PyLemmas Model_part Model_conn Proofs_conn1 Model_label Model_halo Model_interp Proofs_interp1 Model_comm Model_haloghost Spec_haloghost.
Open Scope Z_scope.

(** ** lists *)
Lemma foldM_flat {S X Y} (f : S -> Y -> res S) (g : X -> list Y) l s : foldM (fun s x => foldM f (g x) s) l s = foldM f (flat_map g l) s.
Proof. revert s. induction l as [|x l IH]; intros s; [reflexivity|]. cbn [foldM flat_map]. rewrite foldM_app. destruct (foldM f (g x) s); cbn [bind]; [apply IH | reflexivity]. Qed.
Lemma filter_flat_map {X Y} (f : Y -> bool) (g : X -> list Y) l : filter f (flat_map g l) = flat_map (fun x => filter f (g x)) l.
Proof. induction l as [|x l IH]; [reflexivity|]. cbn [flat_map]. rewrite filter_app, IH. reflexivity. Qed.
Lemma map_flat_map {X Y W} (f : Y -> W) (g : X -> list Y) l : map f (flat_map g l) = flat_map (fun x => map f (g x)) l.
Proof. induction l as [|x l IH]; [reflexivity|]. cbn [flat_map]. rewrite map_app, IH. reflexivity. Qed.
Lemma flat_map_ext_in {X Y} (f g : X -> list Y) l : (forall x, In x l -> f x = g x) -> flat_map f l = flat_map g l.
Proof. induction l as [|x l IH]; intros H; [reflexivity|]. cbn [flat_map]. rewrite (H x (or_introl eq_refl)), IH; [reflexivity|]. intros y Hy. apply H. right; exact Hy. Qed.
Lemma flat_map_single {X Y} (f : X -> Y) l : flat_map (fun x => [f x]) l = map f l.
Proof. induction l as [|x l IH]; [reflexivity|]. cbn [flat_map map]. rewrite IH. reflexivity. Qed.
Lemma flat_map_nil {X Y} (l : list X) : flat_map (fun _ => @nil Y) l = [].
Proof. induction l; [reflexivity | assumption]. Qed.
Lemma get_snoc {A} (l : list A) x : get (l ++ [x]) (-1) = Ok x.
Proof. rewrite (get_last x) by (rewrite zlen_app; change (zlen [x]) with 1; pose proof (zlen_nonneg l); lia). rewrite zlen_app. change (zlen [x]) with 1. replace (zlen l + 1 - 1) with (zlen l) by lia. rewrite nthZ_app_last. reflexivity. Qed.
Lemma flat_map_none {X Y} (f : X -> list Y) l : (forall x, In x l -> f x = []) -> flat_map f l = [].
Proof. intros H. rewrite (flat_map_ext_in f (fun _ => []) l H). apply flat_map_nil. Qed.
Lemma flat_map_flat_map {X Y W} (f : Y -> list W) (g : X -> list Y) l : flat_map f (flat_map g l) = flat_map (fun x => flat_map f (g x)) l.
Proof. induction l as [|x l IH]; [reflexivity|]. cbn [flat_map]. rewrite flat_map_app, IH. reflexivity. Qed.
Lemma concat_firstn_slice {A} (b : list (list A)) (r : Z) : 0 <= r < zlen b ->
  firstn (Z.to_nat (zlen (nthZ [] b r))) (skipn (Z.to_nat (zlen (concat (firstn (Z.to_nat r) b)))) (concat b)) = nthZ [] b r /\
  zlen (concat (firstn (Z.to_nat r) b)) + zlen (nthZ [] b r) <= zlen (concat b).
Proof.
  intros Hr. unfold nthZ. assert (Hn : (Z.to_nat r < length b)%nat) by (unfold zlen in Hr; lia). generalize dependent (Z.to_nat r). clear Hr r. intros n Hn. unfold zlen. rewrite !Nat2Z.id.
  revert n Hn. induction b as [|x b IH]; intros n Hn; [cbn in Hn; lia|]. destruct n as [|n].
  - cbn [nth firstn concat skipn length]. rewrite firstn_app, Nat.sub_diag, firstn_O, app_nil_r, firstn_all. split; [reflexivity|]. rewrite app_length. lia.
  - cbn [nth firstn concat]. cbn [length] in Hn. destruct (IH n ltac:(lia)) as (A1 & A2). rewrite !app_length. split; [|lia].
    rewrite skipn_app. rewrite skipn_all2 by lia. cbn [app]. replace (length x + length (concat (firstn n b)) - length x)%nat with (length (concat (firstn n b))) by lia. exact A1.
Qed.
Lemma firstn_snoc_concat {A} (b : list (list A)) (i : Z) : 0 <= i < zlen b -> concat (firstn (Z.to_nat (i + 1)) b) = concat (firstn (Z.to_nat i) b) ++ nthZ [] b i.
Proof.
  intros Hi. replace (Z.to_nat (i + 1)) with (S (Z.to_nat i)) by lia. unfold nthZ. assert (Hn : (Z.to_nat i < length b)%nat) by (unfold zlen in Hi; lia). generalize dependent (Z.to_nat i). clear. intros n Hn. revert n Hn.
  induction b as [|x b IH]; intros n Hn; [cbn in Hn; lia|]. destruct n as [|n]; [cbn; rewrite app_nil_r; reflexivity|]. change (firstn (S (S n)) (x :: b)) with (x :: firstn (S n) b). change (firstn (S n) (x :: b)) with (x :: firstn n b).
  cbn [concat nth]. cbn [length] in Hn. rewrite (IH n ltac:(lia)), app_assoc. reflexivity.
Qed.

(** rows put in buckets *)
Definition bucket {A} (items : list (Z * A)) (k : Z) : list A := map snd (filter (fun it => fst it =? k) items).
Lemma append_items {A} (items : list (Z * A)) n : 0 <= n -> (forall it, In it items -> 0 <= fst it < n) ->
  foldM (fun b (it : Z * A) => append_at b (fst it) (snd it)) items (zeros_like [] n) = Ok (map (bucket items) (range n)).
Proof.
  intros Hn HK. destruct (foldM_inv (fun done b => (forall it, In it done -> True) -> b = map (bucket done) (range n)) (fun b (it : Z * A) => append_at b (fst it) (snd it)) items (zeros_like [] n)) as (b & E & Hb).
  - intros _. apply (nthZ_ext []); [rewrite zlen_zeros_like, zlen_map, zlen_range by exact Hn; reflexivity|]. intros i Hi. rewrite zlen_zeros_like in Hi by exact Hn. rewrite nthZ_zeros_like by exact Hi.
    rewrite (nthZ_map _ 0) by (rewrite zlen_range; lia). reflexivity.
  - intros done it l b E Hb. specialize (Hb ltac:(trivial)). subst b. assert (HI : 0 <= fst it < n) by (apply HK; rewrite E; apply in_or_app; right; left; reflexivity).
    rewrite append_at_upd by (rewrite zlen_map, zlen_range; lia). eexists. split; [reflexivity|]. intros _. apply (nthZ_ext []); [rewrite zlen_upd, !zlen_map; reflexivity|]. intros k Hk. rewrite zlen_upd, zlen_map, zlen_range in Hk by exact Hn.
    rewrite nthZ_upd by (rewrite ?zlen_map, ?zlen_range; lia). rewrite !(nthZ_map (bucket (done ++ [it])) 0), !(nthZ_map (bucket done) 0) by (rewrite zlen_range; lia). rewrite !nthZ_range by lia.
    unfold bucket. rewrite filter_app, map_app. cbn [filter]. destruct (fst it =? k) eqn:EK.
    + apply Z.eqb_eq in EK. subst k. rewrite Z.eqb_refl. reflexivity.
    + rewrite Z.eqb_sym, EK. cbn [map]. rewrite app_nil_r. reflexivity.
  - rewrite E. f_equal. apply Hb. trivial.
Qed.
Lemma filter_eq_mem {A} (a : A) k ps : NoDup ps -> map snd (filter (fun it : Z * A => fst it =? k) (map (fun p => (p, a)) ps)) = if mem k ps then [a] else [].
Proof.
  intros ND. induction ND as [|p ps NI ND IH]; [reflexivity|]. cbn [map filter fst]. destruct (p =? k) eqn:E.
  - apply Z.eqb_eq in E. subst p. cbn [map snd]. rewrite IH. rewrite (proj2 (mem_not_In k ps) NI). unfold mem. cbn [existsb]. rewrite Z.eqb_refl. reflexivity.
  - rewrite IH. unfold mem. cbn [existsb]. rewrite Z.eqb_sym, E. reflexivity.
Qed.

Section Ex.
Context (SIZE : Z) (nparts : list (list Z)) (Hs : list hgrank).
Hypothesis WE : wf_exchange SIZE nparts Hs.
Let HS : 1 <= SIZE := proj1 (we_size _ _ _ WE).
Notation H r := (rank_of Hs r).

(** ** the rows of rank s for rank r *)
Definition row (s i : Z) (e : nodeghost) : hgrow :=
  {| hr_node := global_node (H s) i; hr_pt := ng_pt e; hr_cell := nthZ 0 (hk_cell (H s)) (ng_cell e); hr_name := ng_name e; hr_face := ng_face e; hr_fcenter := ng_fcenter e; hr_fnormal := ng_fnormal e |}.
Definition rows_to (s r : Z) : list hgrow :=
  if s =? r then [] else flat_map (fun i => if mem r (nthZ [] nparts (global_node (H s) i)) then map (row s i) (nthZ [] (hk_ghost (H s)) i) else []) (hk_nodes (H s)).
Lemma get_rank r : 0 <= r < SIZE -> get Hs r = Ok (H r).
Proof. intros Hr. apply get_nthZ. rewrite (proj2 (we_size _ _ _ WE)). exact Hr. Qed.
Lemma collect_ok s : 0 <= s < SIZE -> collect SIZE s nparts (H s) = Ok (map (rows_to s) (range SIZE)).
Proof.
  intros Hr. destruct (we_nodes _ _ _ WE s Hr) as (ND & NDn & LN & LH & HI). pose proof (we_parts _ _ _ WE s) as HP.
  set (items := fun i => flat_map (fun e => map (fun k => (k, row s i e)) (filter (fun k => negb (k =? s)) (nthZ [] nparts (global_node (H s) i)))) (nthZ [] (hk_ghost (H s)) i)).
  assert (E : collect SIZE s nparts (H s) = foldM (fun b (it : Z * hgrow) => append_at b (fst it) (snd it)) (flat_map items (hk_nodes (H s))) (zeros_like [] SIZE)).
  { rewrite <- foldM_flat. unfold collect. apply foldM_ext. intros b i Hi. destruct (HI i Hi) as (Hi' & He). rewrite (get_nthZ []) by lia. cbn [bind]. unfold items. rewrite <- foldM_flat. apply foldM_ext. intros b' e Hin.
    destruct (He e Hin) as (Hc & _). destruct (HP i Hr Hi) as (Hg & NDp & _). unfold global_node in *. rewrite (get_nthZ 0) by lia. cbn [bind]. rewrite (get_nthZ []) by exact Hg. cbn [bind].
    rewrite foldM_map. unfold row_of. rewrite (get_nthZ 0 (hk_node (H s))) by lia. cbn [bind]. rewrite (get_nthZ 0 (hk_cell (H s))) by exact Hc. cbn [bind fst snd].
    generalize (nthZ [] nparts (nthZ 0 (hk_node (H s)) i)). intros ps. revert b'. induction ps as [|k ps IH]; intros b'; [reflexivity|]. cbn [foldM filter]. destruct (k =? s) eqn:EK; cbn [negb].
    - cbn [bind]. apply IH.
    - cbn [foldM]. change {| hr_node := nthZ 0 (hk_node (H s)) i; hr_pt := ng_pt e; hr_cell := nthZ 0 (hk_cell (H s)) (ng_cell e); hr_name := ng_name e; hr_face := ng_face e; hr_fcenter := ng_fcenter e; hr_fnormal := ng_fnormal e |} with (row s i e) in *.
      destruct (append_at b' k (row s i e)); cbn [bind]; [apply IH | reflexivity]. }
  rewrite E. rewrite append_items; [|lia|].
  - f_equal. apply map_ext_in. intros r Hin. apply in_range in Hin. unfold bucket, rows_to. rewrite filter_flat_map, map_flat_map. destruct (s =? r) eqn:ES.
    + apply Z.eqb_eq in ES. subst r. apply flat_map_none. intros i Hi. unfold items. rewrite filter_flat_map, map_flat_map.
      apply flat_map_none. intros e _. destruct (HP i Hr Hi) as (_ & NDp & _). rewrite filter_eq_mem by (apply NoDup_filter; exact NDp).
      rewrite (proj2 (mem_not_In s _)); [reflexivity|]. intros X. apply filter_In in X as (_ & X). rewrite Z.eqb_refl in X. discriminate.
    + apply flat_map_ext_in. intros i Hi. unfold items. rewrite filter_flat_map, map_flat_map. destruct (HP i Hr Hi) as (_ & NDp & _).
      transitivity (flat_map (fun e => if mem r (nthZ [] nparts (global_node (H s) i)) then [row s i e] else []) (nthZ [] (hk_ghost (H s)) i)).
      * apply flat_map_ext_in. intros e _. rewrite filter_eq_mem by (apply NoDup_filter; exact NDp). match goal with |- (if ?a then _ else _) = (if ?b then _ else _) => assert (EB : a = b); [|rewrite EB; reflexivity] end. apply eq_iff_eq_true. rewrite !mem_In, filter_In. apply Z.eqb_neq in ES. split; [intros (X & _); exact X | intros X; split; [exact X|]]. rewrite negb_true_iff. apply Z.eqb_neq. congruence.
      * destruct (mem r _); [apply flat_map_single | apply flat_map_nil].
  - intros it Hit. apply in_flat_map in Hit as (i & Hi & Hit). unfold items in Hit. apply in_flat_map in Hit as (e & _ & Hit). apply in_map_iff in Hit as (k & <- & Hk). apply filter_In in Hk as (Hk & _). cbn [fst].
    destruct (HP i Hr Hi) as (_ & _ & _ & HN). apply (HN k Hk).
Qed.
Lemma rows_to_neigh s r : 0 <= s < SIZE -> ~ In r (hk_neigh (H s)) -> rows_to s r = [].
Proof.
  intros Hs' NI. unfold rows_to. destruct (s =? r) eqn:E; [reflexivity|]. apply Z.eqb_neq in E. apply flat_map_none. intros i Hi. destruct (we_parts _ _ _ WE s i Hs' Hi) as (_ & _ & _ & HN).
  rewrite (proj2 (mem_not_In r _)); [reflexivity|]. intros X. destruct (HN r X) as (_ & Y). apply NI, Y. congruence.
Qed.
Lemma send_counts_ok s : 0 <= s < SIZE -> send_counts SIZE (hk_neigh (H s)) (map (rows_to s) (range SIZE)) = Ok (map (fun r => zlen (rows_to s r)) (range SIZE)).
Proof.
  intros Hs'. unfold send_counts.
  destruct (foldM_inv (fun done sc => zlen sc = SIZE /\ forall p, 0 <= p < SIZE -> nthZ 0 sc p = if mem p done then zlen (rows_to s p) else 0)
     (fun sc p => do rows <- get (map (rows_to s) (range SIZE)) p; set sc p (zlen rows)) (hk_neigh (H s)) (zeros_like 0 SIZE)) as (sc & E & HL & HV).
  - split; [apply zlen_zeros_like; lia|]. intros p Hp. rewrite nthZ_zeros_like by exact Hp. reflexivity.
  - intros done p l sc E (HL & HV). assert (Hp : 0 <= p < SIZE) by (apply (we_neigh _ _ _ WE s p Hs'); rewrite E; apply in_or_app; right; left; reflexivity).
    rewrite get_map_range by exact Hp. cbn [bind]. rewrite set_upd by lia. eexists. split; [reflexivity|]. split; [rewrite zlen_upd; exact HL|]. intros q Hq. rewrite nthZ_upd by lia.
    unfold mem. rewrite existsb_app. cbn [existsb]. rewrite orb_false_r. destruct (p =? q) eqn:EQ.
    + apply Z.eqb_eq in EQ. subst q. rewrite Z.eqb_refl, orb_true_r. reflexivity.
    + rewrite (Z.eqb_sym q p), EQ, orb_false_r. apply HV. exact Hq.
  - rewrite E. f_equal. apply (nthZ_ext 0); [rewrite zlen_map, zlen_range; lia|]. intros p Hp. rewrite HL in Hp. rewrite HV by exact Hp. rewrite (nthZ_map _ 0) by (rewrite zlen_range; lia). rewrite nthZ_range by exact Hp.
    destruct (mem_spec p (hk_neigh (H s))) as [I|NI]; [reflexivity|]. rewrite rows_to_neigh by assumption. reflexivity.
Qed.
Lemma displacements_ok s : 0 <= s < SIZE ->
  displacements SIZE (map (fun r => zlen (rows_to s r)) (range SIZE)) = Ok (map (fun i => zlen (concat (firstn (Z.to_nat i) (map (rows_to s) (range SIZE))))) (range SIZE)).
Proof.
  intros Hs'. unfold displacements, range2. rewrite foldM_map. set (B := map (rows_to s) (range SIZE)). assert (LB : zlen B = SIZE) by (unfold B; rewrite zlen_map, zlen_range; lia).
  destruct (foldM_range_inv (fun n d => zlen d = SIZE /\ forall i, 0 <= i <= n -> i < SIZE -> nthZ 0 d i = zlen (concat (firstn (Z.to_nat i) B)))
     (fun d k => do a <- get d (1 + k - 1); do n <- get (map (fun r => zlen (rows_to s r)) (range SIZE)) (1 + k - 1); set d (1 + k) (a + n)) (SIZE - 1) (zeros_like 0 SIZE)) as (d & E & HL & HV).
  - lia.
  - split; [apply zlen_zeros_like; lia|]. intros i Hi Hi'. replace i with 0 by lia. rewrite nthZ_zeros_like by lia. reflexivity.
  - intros k d Hk (HL & HV). replace (1 + k - 1) with k by lia. rewrite (get_nthZ 0) by lia. cbn [bind]. rewrite get_map_range by lia. cbn [bind]. rewrite set_upd by lia. eexists. split; [reflexivity|]. split; [rewrite zlen_upd; exact HL|].
    intros i Hi Hi'. rewrite nthZ_upd by lia. destruct (i =? 1 + k) eqn:EI.
    + apply Z.eqb_eq in EI. subst i. rewrite HV by lia. rewrite (Z.add_comm 1 k), firstn_snoc_concat by lia. rewrite zlen_app. f_equal. unfold B. rewrite (nthZ_map _ 0) by (rewrite zlen_range; lia). rewrite nthZ_range by lia. reflexivity.
    + apply HV; lia.
  - rewrite E. f_equal. apply (nthZ_ext 0); [rewrite zlen_map, zlen_range; lia|]. intros i Hi. rewrite HL in Hi. rewrite HV by lia. rewrite (nthZ_map _ 0) by (rewrite zlen_range; lia). rewrite nthZ_range by exact Hi. reflexivity.
Qed.
Definition sent (s : Z) : hgsend :=
  {| hs_buf := concat (map (rows_to s) (range SIZE)); hs_count := map (fun r => zlen (rows_to s r)) (range SIZE);
     hs_depl := map (fun i => zlen (concat (firstn (Z.to_nat i) (map (rows_to s) (range SIZE))))) (range SIZE) |}.
Lemma prepare_send_ok s : 0 <= s < SIZE -> prepare_send SIZE s nparts (H s) = Ok (sent s).
Proof. intros Hs'. unfold prepare_send. rewrite collect_ok by exact Hs'. cbn [bind]. rewrite send_counts_ok by exact Hs'. cbn [bind]. rewrite displacements_ok by exact Hs'. reflexivity. Qed.
Lemma alltoallv_ok r : 0 <= r < SIZE -> alltoallv SIZE (map sent (range SIZE)) r = Ok (flat_map (fun s => rows_to s r) (range SIZE)).
Proof.
  intros Hr. unfold alltoallv. rewrite (mapM_ok _ (fun s => rows_to s r)); [cbn [bind]; rewrite flat_map_concat_map; reflexivity|]. intros s Hs'. apply in_range in Hs'. rewrite get_map_range by exact Hs'. cbn [bind sent hs_count hs_depl hs_buf].
  rewrite !get_map_range by exact Hr. cbn [bind]. set (B := map (rows_to s) (range SIZE)). assert (LB : zlen B = SIZE) by (unfold B; rewrite zlen_map, zlen_range; lia).
  assert (EB : rows_to s r = nthZ [] B r) by (unfold B; rewrite (nthZ_map _ 0) by (rewrite zlen_range; lia); rewrite nthZ_range by exact Hr; reflexivity). rewrite EB.
  destruct (concat_firstn_slice B r) as (A1 & A2); [lia|]. destruct (Z.ltb_spec (zlen (concat B)) (zlen (concat (firstn (Z.to_nat r) B)) + zlen (nthZ [] B r))); [lia|]. rewrite A1. reflexivity.
Qed.

(** ** what rank r makes of them *)
Lemma group_get rows g : zget_opt (group rows) g = match filter (fun x => hr_node x =? g) rows with [] => None | l => Some l end.
Proof.
  unfold group. induction rows as [|x rows IH] using rev_ind; [reflexivity|]. rewrite fold_left_app. cbn [fold_left]. rewrite zget_opt_zset. rewrite filter_app. cbn [filter].
  destruct (hr_node x =? g) eqn:E.
  - apply Z.eqb_eq in E. rewrite E. rewrite IH. destruct (filter _ rows) as [|y l]; reflexivity.
  - rewrite IH, app_nil_r. reflexivity.
Qed.
Definition rowg (g : Z) (se : Z * nodeghost) : hgrow :=
  {| hr_node := g; hr_pt := ng_pt (snd se); hr_cell := nthZ 0 (hk_cell (H (fst se))) (ng_cell (snd se)); hr_name := ng_name (snd se); hr_face := ng_face (snd se); hr_fcenter := ng_fcenter (snd se); hr_fnormal := ng_fnormal (snd se) |}.
Definition rows_at (r i : Z) : list hgrow := map (rowg (global_node (H r) i)) (ghosts_elsewhere SIZE Hs r (global_node (H r) i)).
Lemma filter_rows r i : 0 <= r < SIZE -> In i (hk_nodes (H r)) -> filter (fun x => hr_node x =? global_node (H r) i) (flat_map (fun s => rows_to s r) (range SIZE)) = rows_at r i.
Proof.
  intros Hr Hi. destruct (we_parts _ _ _ WE r i Hr Hi) as (_ & _ & HIn & _). set (g := global_node (H r) i) in *. unfold rows_at, ghosts_elsewhere. fold g. rewrite filter_flat_map, map_flat_map. apply flat_map_ext_in. intros s _. unfold rows_to. destruct (s =? r); [reflexivity|].
  rewrite filter_flat_map, map_map. unfold ghosts_at. rewrite map_flat_map. apply flat_map_ext_in. intros j _. destruct (global_node (H s) j =? g) eqn:E.
  - apply Z.eqb_eq in E. rewrite E. rewrite (proj2 (mem_In r _) HIn). unfold row. rewrite E. clear. induction (nthZ [] (hk_ghost (H s)) j) as [|e l IH]; [reflexivity|]. cbn [map filter hr_node]. rewrite Z.eqb_refl, IH. reflexivity.
  - cbn [map]. destruct (mem r _); [|reflexivity]. induction (nthZ [] (hk_ghost (H s)) j) as [|e l IH]; [reflexivity|]. cbn [map filter hr_node row]. rewrite E. exact IH.
Qed.
Lemma receive_ok r : 0 <= r < SIZE -> receive (H r) (flat_map (fun s => rows_to s r) (range SIZE)) =
  Ok (map (fun i => if mem i (hk_nodes (H r)) then rows_at r i else []) (range (zlen (hk_ghost (H r))))).
Proof.
  intros Hr. destruct (we_nodes _ _ _ WE r Hr) as (ND & _ & LN & _ & HI). set (n := zlen (hk_ghost (H r))) in *. assert (Hn : 0 <= n) by apply zlen_nonneg. unfold receive. fold n.
  set (F := fun t i => _). destruct (foldM_inv (fun done t => zlen t = n /\ forall i, 0 <= i < n -> nthZ [] t i = if mem i done then rows_at r i else []) F (hk_nodes (H r)) (zeros_like [] n)) as (t & E & HL & HV).
  - split; [apply zlen_zeros_like; exact Hn|]. intros i Hi. rewrite nthZ_zeros_like by exact Hi. reflexivity.
  - intros done i l t E (HL & HV). assert (Hin : In i (hk_nodes (H r))) by (rewrite E; apply in_or_app; right; left; reflexivity). destruct (HI i Hin) as (Hi & _).
    assert (NI : ~ In i done). { rewrite E in ND. apply NoDup_remove_2 in ND. intros X. apply ND, in_or_app. left; exact X. }
    assert (EF : F t i = Ok (upd t i (rows_at r i))).
    { unfold F. rewrite (get_nthZ 0) by lia. cbn [bind]. change (nthZ 0 (hk_node (H r)) i) with (global_node (H r) i). rewrite group_get, filter_rows by assumption.
      assert (Et : nthZ [] t i = []) by (rewrite HV by exact Hi; rewrite (proj2 (mem_not_In i done) NI); reflexivity).
      destruct (rows_at r i) as [|x rows] eqn:ER; [|rewrite extend_at_upd by lia; rewrite Et; reflexivity]. rewrite <- Et. rewrite upd_same by lia. reflexivity. }
    rewrite EF. eexists. split; [reflexivity|]. split; [rewrite zlen_upd; exact HL|]. intros j Hj. rewrite nthZ_upd by lia. unfold mem. rewrite existsb_app. cbn [existsb]. rewrite orb_false_r. destruct (i =? j) eqn:EQ.
    + apply Z.eqb_eq in EQ. subst j. rewrite Z.eqb_refl, orb_true_r. reflexivity.
    + rewrite (Z.eqb_sym j i), EQ, orb_false_r. apply HV. exact Hj.
  - rewrite E. f_equal. apply (nthZ_ext []); [rewrite zlen_map, zlen_range; lia|]. intros i Hi. rewrite HL in Hi. rewrite HV by exact Hi. rewrite (nthZ_map _ 0) by (rewrite zlen_range; lia). rewrite nthZ_range by exact Hi. reflexivity.
Qed.
(** the dictionary of the halo cells *)
Lemma halo_is_unique r h h' c : 0 <= r < SIZE -> halo_is (H r) h c -> halo_is (H r) h' c -> h = h'.
Proof.
  intros Hr (A1 & A2) (B1 & B2). destruct (we_halos _ _ _ WE r Hr) as (ND & _). rewrite (NoDup_nth _ 0) in ND. rewrite map_length in ND. unfold zlen in *.
  assert (X : Z.to_nat h = Z.to_nat h'); [|lia]. apply ND; [lia | lia|]. 
  assert (G : forall k, (k < length (hk_ext (H r)))%nat -> nth k (map (fun row => nthZ 0 row 0) (hk_ext (H r))) 0 = nthZ 0 (nth k (hk_ext (H r)) []) 0).
  { intros k Hk. rewrite (nth_indep _ 0 (nthZ 0 [] 0)) by (rewrite map_length; exact Hk). apply (map_nth (fun row => nthZ 0 row 0)). }
  rewrite !G by lia. unfold nthZ in A2, B2. unfold nthZ. rewrite A2, B2. reflexivity.
Qed.
Lemma halo_index_ok r : 0 <= r < SIZE -> exists ind, halo_index (H r) = Ok ind /\ (forall c h, zget_opt ind c = Some h -> halo_is (H r) h c) /\
  forall i s e, In i (hk_nodes (H r)) -> 0 <= s < SIZE -> s <> r -> In e (ghosts_at (H s) (global_node (H r) i)) -> exists h, zget ind (nthZ 0 (hk_cell (H s)) (ng_cell e)) = Ok h.
Proof.
  intros Hr. destruct (we_nodes _ _ _ WE r Hr) as (ND & _ & LN & LH & HI). destruct (we_halos _ _ _ WE r Hr) as (NDh & HW). unfold halo_index.
  set (sound := fun ind : dictZ Z => forall c h, zget_opt ind c = Some h -> halo_is (H r) h c). set (F := fun d i => _).
  destruct (foldM_inv (fun done d => sound d /\ forall i W pad, In i done -> nthZ [] (hk_nodehalo (H r)) i = W ++ pad ++ [zlen W] -> forall h, In h W -> exists h', zget_opt d (nthZ 0 (nthZ [] (hk_ext (H r)) h) 0) = Some h') F (hk_nodes (H r)) []) as (d & E & HS1 & HS2).
  - split; [intros c h X; discriminate | intros i W pad []].
  - intros done i l d E (S1 & S2). assert (Hin : In i (hk_nodes (H r))) by (rewrite E; apply in_or_app; right; left; reflexivity). destruct (HI i Hin) as (Hi & _). destruct (HW i Hin) as (W & pad & EW & HWr & _).
    unfold F. rewrite (get_nthZ []) by lia. cbn [bind]. unfold count_loop. rewrite EW. rewrite app_assoc, get_snoc. cbn [bind].
    rewrite (foldM_ext _ (fun a j => do c <- get W j; do x <- get2 (hk_ext (H r)) c 0; ret (zset a x c))).
    2:{ intros a j Hj. apply in_range in Hj. f_equal. rewrite (get_nthZ 0) by (rewrite !zlen_app; pose proof (zlen_nonneg pad); pose proof (zlen_nonneg [zlen W]); lia). rewrite (get_nthZ 0 W) by exact Hj. rewrite <- app_assoc. rewrite nthZ_app_l by exact Hj. reflexivity. }
    rewrite (foldM_range_get (fun a c => do x <- get2 (hk_ext (H r)) c 0; ret (zset a x c)) W (zlen W)) by reflexivity.
    destruct (foldM_inv (fun done' d' => sound d' /\ (forall c h, zget_opt d c = Some h -> exists h', zget_opt d' c = Some h') /\ forall h, In h done' -> exists h', zget_opt d' (nthZ 0 (nthZ [] (hk_ext (H r)) h) 0) = Some h')
       (fun a c => do x <- get2 (hk_ext (H r)) c 0; ret (zset a x c)) W d) as (d' & E' & T1 & T2 & T3).
    + split; [exact S1|]. split; [eauto | intros h []].
    + intros done' h l' d' E' (T1 & T2 & T3). assert (HhW : In h W) by (rewrite E'; apply in_or_app; right; left; reflexivity). destruct (HWr h HhW) as (Hh & NE).
      assert (Hz : 0 <= 0 < zlen (nthZ [] (hk_ext (H r)) h)) by (destruct (nthZ [] (hk_ext (H r)) h) as [|z0 l0]; [contradiction | rewrite zlen_cons; pose proof (zlen_nonneg l0); lia]). rewrite (get2_nthZ 0) by assumption. cbn [bind]. eexists. split; [reflexivity|]. split; [|split].
      * intros c h0. rewrite zget_opt_zset. destruct (_ =? c) eqn:EC; [|apply T1]. apply Z.eqb_eq in EC. intros X. injection X as <-. split; assumption.
      * intros c h0 X. rewrite zget_opt_zset. destruct (_ =? c); [eauto | apply T2 with h0; exact X].
      * intros h0 X. apply in_app_or in X. rewrite zget_opt_zset. destruct (_ =? _) eqn:EC; [eauto|]. destruct X as [X|[<-|[]]]; [apply T3; exact X | rewrite Z.eqb_refl in EC; discriminate].
    + rewrite E'. eexists. split; [reflexivity|]. split; [exact T1|]. intros i' W' pad' Hi' EW' h Hh. apply in_app_or in Hi' as [Hi'|[<-|[]]].
      * destruct (S2 i' W' pad' Hi' EW' h Hh) as (h' & X). apply T2 with h'. exact X.
      * apply T3. rewrite EW in EW'. assert (W = W'); [|subst; exact Hh].
        assert (EE : zlen W = zlen W') by (rewrite !app_assoc in EW'; apply app_inj_tail in EW'; apply EW').
        apply (f_equal (firstn (length W))) in EW'. unfold zlen in EE. apply Nat2Z.inj in EE. rewrite EE in EW' at 2. rewrite !firstn_app, !Nat.sub_diag, !firstn_O, !app_nil_r, !firstn_all in EW'. exact EW'.
  - exists d. split; [exact E|]. split; [exact HS1|]. intros i s e Hi Hs' NE He. destruct (HW i Hi) as (W & pad & EW & _ & HW2). destruct (HW2 s e Hs' NE He) as (h & Hh & _ & Ec). rewrite <- Ec. destruct (HS2 i W pad Hi EW h Hh) as (h' & X). exists h'. unfold zget. rewrite X. reflexivity.
Qed.
Lemma in_elsewhere r g s e : In (s, e) (ghosts_elsewhere SIZE Hs r g) <-> 0 <= s < SIZE /\ s <> r /\ In e (ghosts_at (H s) g).
Proof.
  unfold ghosts_elsewhere. rewrite in_flat_map. split.
  - intros (s' & Hs' & HI). apply in_range in Hs'. destruct (s' =? r) eqn:E; [destruct HI|]. apply in_map_iff in HI as (e' & X & HI). injection X as <- <-. apply Z.eqb_neq in E. auto.
  - intros (A & B & C). exists s. split; [apply in_range; exact A|]. apply Z.eqb_neq in B. rewrite B. apply in_map. exact C.
Qed.
Lemma ghost_face_nonneg s g e : 0 <= s < SIZE -> In e (ghosts_at (H s) g) -> 0 <= ng_face e.
Proof.
  intros Hs' He. unfold ghosts_at in He. apply in_flat_map in He as (i & Hi & He). destruct (we_nodes _ _ _ WE s Hs') as (_ & _ & _ & _ & HI). destruct (_ =? g); [|destruct He]. destruct (HI i Hi) as (_ & X). apply (X e He).
Qed.
Lemma range_app a b : 0 <= a -> 0 <= b -> range (a + b) = range a ++ map (fun k => a + k) (range b).
Proof.
  intros Ha Hb. apply (nthZ_ext 0); [rewrite zlen_app, zlen_map, !zlen_range by lia; reflexivity|]. intros i Hi. rewrite zlen_range in Hi by lia. rewrite nthZ_range by lia. destruct (Z.lt_ge_cases i a).
  - rewrite nthZ_app_l by (rewrite zlen_range; lia). rewrite nthZ_range by lia. reflexivity.
  - rewrite nthZ_app_r by (rewrite zlen_range; lia). rewrite zlen_range by lia. rewrite (nthZ_map _ 0) by (rewrite zlen_range; lia). rewrite nthZ_range by lia. lia.
Qed.
Lemma number_row_ok r i ind cmpt L : (forall c h, zget_opt ind c = Some h -> halo_is (H r) h c) ->
  (forall se, In se L -> 0 <= ng_face (snd se) /\ exists h, zget ind (nthZ 0 (hk_cell (H (fst se))) (ng_cell (snd se))) = Ok h) ->
  exists out, number_row ind (map (rowg (global_node (H r) i)) L) cmpt = Ok (out, cmpt + zlen L) /\ Forall2 (received Hs r) L out /\ map g_last out = map (fun k => cmpt + k) (range (zlen L)).
Proof.
  intros HS1. unfold number_row. rewrite foldM_map. induction L as [|se L IH] using rev_ind; intros HL.
  - exists []. cbn [foldM]. split; [rewrite Z.add_0_r; reflexivity|]. split; [constructor | reflexivity].
  - destruct IH as (out & E & HF & HN). { intros x Hx. apply HL, in_or_app. left; exact Hx. } destruct (HL se) as (H1 & h & Eh); [apply in_or_app; right; left; reflexivity|].
    rewrite foldM_app, E. cbn [bind foldM]. cbn [rowg hr_face hr_cell]. destruct (ng_face (snd se) =? -1) eqn:EF; [lia|]. rewrite Eh. cbn [bind hr_pt hr_name]. eexists. rewrite zlen_app. change (zlen [se]) with 1. split; [rewrite Z.add_assoc; reflexivity|]. split.
    + apply Forall2_app; [exact HF|]. constructor; [|constructor]. split; [reflexivity|]. split; [reflexivity|]. cbn [g_cell]. apply HS1. unfold zget in Eh. destruct (zget_opt ind _); [injection Eh as <-; reflexivity | discriminate].
    + rewrite map_app, HN. rewrite range_succ by apply zlen_nonneg. rewrite map_app. reflexivity.
Qed.
Lemma number_ok r ind t : 0 <= r < SIZE -> t = map (fun i => if mem i (hk_nodes (H r)) then rows_at r i else []) (range (zlen (hk_ghost (H r)))) ->
  (forall c h, zget_opt ind c = Some h -> halo_is (H r) h c) ->
  (forall i s e, In i (hk_nodes (H r)) -> 0 <= s < SIZE -> s <> r -> In e (ghosts_at (H s) (global_node (H r) i)) -> exists h, zget ind (nthZ 0 (hk_cell (H s)) (ng_cell e)) = Ok h) ->
  exists out cmpt, number (H r) ind t = Ok (out, cmpt) /\ 0 <= cmpt /\ zlen out = zlen (hk_ghost (H r)) /\
    (forall i, 0 <= i < zlen (hk_ghost (H r)) -> ~ In i (hk_nodes (H r)) -> nthZ [] out i = []) /\
    (forall i, In i (hk_nodes (H r)) -> Forall2 (received Hs r) (ghosts_elsewhere SIZE Hs r (global_node (H r) i)) (nthZ [] out i)) /\
    flat_map (fun i => map g_last (nthZ [] out i)) (hk_nodes (H r)) = range cmpt.
Proof.
  intros Hr Et HS1 HS2. destruct (we_nodes _ _ _ WE r Hr) as (ND & _ & _ & _ & HI). set (n := zlen (hk_ghost (H r))) in *. assert (Hn : 0 <= n) by apply zlen_nonneg. unfold number. fold n. set (F := fun '(out, cmpt) i => _).
  destruct (foldM_inv (fun done (s : list (list gentry) * Z) => let '(out, cmpt) := s in zlen out = n /\ 0 <= cmpt /\ (forall i, 0 <= i < n -> ~ In i done -> nthZ [] out i = []) /\
     (forall i, In i done -> Forall2 (received Hs r) (ghosts_elsewhere SIZE Hs r (global_node (H r) i)) (nthZ [] out i)) /\ flat_map (fun i => map g_last (nthZ [] out i)) done = range cmpt) F (hk_nodes (H r)) (zeros_like [] n, 0)) as ((out & cmpt) & E & HL & HC & HO & HR & HN).
  - split; [apply zlen_zeros_like; exact Hn|]. split; [lia|]. split; [intros i Hi _; apply nthZ_zeros_like; exact Hi|]. split; [intros i [] | reflexivity].
  - intros done i l (out & cmpt) E (HL & HC & HO & HR & HN). assert (Hin : In i (hk_nodes (H r))) by (rewrite E; apply in_or_app; right; left; reflexivity). destruct (HI i Hin) as (Hi & _).
    assert (NI : ~ In i done). { rewrite E in ND. apply NoDup_remove_2 in ND. intros X. apply ND, in_or_app. left; exact X. }
    unfold F. rewrite (get_nthZ [] t) by (rewrite Et, zlen_map, zlen_range; lia). cbn [bind].
    assert (ER : nthZ [] t i = rows_at r i). { rewrite Et. rewrite (nthZ_map _ 0) by (rewrite zlen_range; lia). rewrite nthZ_range by exact Hi. rewrite (proj2 (mem_In i _) Hin). reflexivity. } rewrite ER.
    destruct (number_row_ok r i ind cmpt (ghosts_elsewhere SIZE Hs r (global_node (H r) i)) HS1) as (row' & Erow & HF & HNr).
    { intros (s & e) Hse. apply in_elsewhere in Hse as (A & B & C). cbn [fst snd]. split; [apply (ghost_face_nonneg s (global_node (H r) i)); assumption | apply (HS2 i); assumption]. }
    unfold rows_at. rewrite Erow. cbn [bind]. rewrite set_upd by lia. cbn [bind]. eexists. split; [reflexivity|]. set (L := ghosts_elsewhere _ _ _ _) in *. pose proof (zlen_nonneg L) as HLn.
    assert (KEEP : forall j, In j done -> nthZ [] (upd out i row') j = nthZ [] out j). { intros j Hj. assert (HJ : In j (hk_nodes (H r))) by (rewrite E; apply in_or_app; left; exact Hj). destruct (HI j HJ) as (Hj' & _). rewrite nthZ_upd_neq; [reflexivity | lia | lia | intros ->; contradiction]. }
    split; [rewrite zlen_upd; exact HL|]. split; [lia|]. split; [|split].
    + intros j Hj NJ. rewrite nthZ_upd_neq; [|lia|lia|]; [apply HO; [exact Hj|]; intros X; apply NJ, in_or_app; left; exact X|]. intros ->. apply NJ, in_or_app. right; left; reflexivity.
    + intros j Hj. apply in_app_or in Hj as [Hj|[<-|[]]]; [rewrite KEEP by exact Hj; apply HR; exact Hj|]. rewrite nthZ_upd_eq by lia. exact HF.
    + rewrite flat_map_app. cbn [flat_map]. rewrite app_nil_r. rewrite nthZ_upd_eq by lia. rewrite range_app by lia. rewrite HNr. f_equal. rewrite <- HN. apply flat_map_ext_in. intros j Hj. rewrite KEEP by exact Hj. reflexivity.
  - exists out, cmpt. auto 10.
Qed.
Lemma finish_ok r : 0 <= r < SIZE -> exists o, finish (H r) (flat_map (fun s => rows_to s r) (range SIZE)) = Ok o /\ exchanged SIZE Hs r o.
Proof.
  intros Hr. unfold finish. rewrite receive_ok by exact Hr. cbn [bind]. destruct (halo_index_ok r Hr) as (ind & E & S1 & S2). rewrite E. cbn [bind]. set (t := map _ (range _)).
  destruct (number_ok r ind t Hr eq_refl S1 S2) as (out & cmpt & En & HC & HL & HO & HR & HN). rewrite En. cbn [bind]. eexists. split; [reflexivity|]. destruct (we_nodes _ _ _ WE r Hr) as (ND & _ & LN & _ & HI).
  assert (Et : forall i, 0 <= i < zlen (hk_ghost (H r)) -> nthZ [] (map (map hr_fcenter) t) i = map hr_fcenter (if mem i (hk_nodes (H r)) then rows_at r i else [])).
  { intros i Hi. rewrite (nthZ_map (map hr_fcenter) []) by (unfold t; rewrite zlen_map, zlen_range by apply zlen_nonneg; exact Hi). unfold t. rewrite (nthZ_map _ 0) by (rewrite zlen_range by apply zlen_nonneg; exact Hi). rewrite nthZ_range by exact Hi. reflexivity. }
  constructor; cbn [ho_ghost ho_info ho_size].
  - split; [exact HL|]. unfold t. rewrite !zlen_map, zlen_range by apply zlen_nonneg. reflexivity.
  - intros i Hi NI. split; [apply HO; assumption|]. rewrite Et by exact Hi. rewrite (proj2 (mem_not_In i _) NI). reflexivity.
  - intros i Hi. cbv zeta. split; [apply HR; exact Hi|]. rewrite Et by apply (HI i Hi). rewrite (proj2 (mem_In i _) Hi). unfold rows_at. rewrite map_map. reflexivity.
  - split; [exact HC | exact HN].
Qed.
Lemma exchange_ok : exists outs, exchange_ghosts SIZE nparts Hs = Ok outs /\ zlen outs = SIZE /\ forall r, 0 <= r < SIZE -> exists o, nthZ {| ho_ghost := []; ho_info := []; ho_size := 0 |} outs r = o /\ exchanged SIZE Hs r o.
Proof.
  assert (G : forall f, (forall r, 0 <= r < SIZE -> f r = finish (H r) (flat_map (fun s => rows_to s r) (range SIZE))) -> exists outs, mapM f (range SIZE) = Ok outs /\ zlen outs = SIZE /\
     forall r, 0 <= r < SIZE -> exists o, nthZ {| ho_ghost := []; ho_info := []; ho_size := 0 |} outs r = o /\ exchanged SIZE Hs r o).
  { intros f Hf. destruct (mapM_total f (range SIZE)) as (outs & E). { intros r Hr. apply in_range in Hr. rewrite Hf by exact Hr. destruct (finish_ok r Hr) as (o & Eo & _). eauto. }
    exists outs. split; [exact E|]. split; [rewrite (mapM_zlen _ _ _ E), zlen_range; lia|]. intros r Hr. destruct (finish_ok r Hr) as (o & Eo & Ho). exists o. split; [|exact Ho].
    pose proof (mapM_nthZ f _ _ 0 {| ho_ghost := []; ho_info := []; ho_size := 0 |} r E) as X. rewrite zlen_range in X by lia. specialize (X Hr). rewrite nthZ_range in X by exact Hr. rewrite Hf, Eo in X by exact Hr. injection X as <-. reflexivity. }
  unfold exchange_ghosts. destruct (Z.ltb_spec 1 SIZE).
  - rewrite (mapM_ok _ sent). 2:{ intros s Hs'. apply in_range in Hs'. rewrite get_rank by exact Hs'. cbn [bind]. apply prepare_send_ok. exact Hs'. } cbn [bind]. apply G. intros r Hr. rewrite get_rank by exact Hr. cbn [bind]. rewrite alltoallv_ok by exact Hr. reflexivity.
  - apply G. intros r Hr. rewrite get_rank by exact Hr. cbn [bind]. replace SIZE with 1 in * by lia. replace r with 0 by lia. reflexivity.
Qed.
End Ex.
