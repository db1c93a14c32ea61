(** * Proofs_save: lemmas for C91. *)
From Coq Require Import String Reals Lra Permutation.
From Verif Require Import Py PyLemmas Model_part Spec_part Model_label Model_conn Spec_conn Model_geom Spec_geom Model_domain Spec_domain Model_parallel Spec_parallel Proofs_run3 Proofs_run7 Model_save Spec_save.
From Verif Require Proofs_comm Proofs_run5.
Open Scope Z_scope.

Lemma fold_max l x : (x <= fold_left Rmax l x)%R /\ (forall y, In y l -> (y <= fold_left Rmax l x)%R) /\ (fold_left Rmax l x = x \/ In (fold_left Rmax l x) l).
Proof.
  revert x. induction l as [|a l IH]; intros x; cbn [fold_left]; [repeat split; [lra | intros y [] | auto]|]. destruct (IH (Rmax x a)) as (A & B & C). pose proof (Rmax_l x a). pose proof (Rmax_r x a).
  repeat split; [lra | intros y [<-|H']; [lra | auto]|]. destruct C as [C|C]; [|right; right; exact C]. rewrite C. unfold Rmax. destruct (Rle_dec x a); [right; left; reflexivity | left; reflexivity].
Qed.
Lemma py_max_ok l : 0 < zlen l -> exists m, py_max l = Ok m /\ In m l /\ forall y, In y l -> (y <= m)%R.
Proof.
  destruct l as [|x t]; [intros H; exfalso; cbn in H; lia|]. intros _. exists (fold_left Rmax t x). split; [reflexivity|]. destruct (fold_max t x) as (A & B & C). split; [destruct C as [-> |C]; [left; reflexivity | right; exact C]|]. intros y [<-|H]; [exact A | exact (B y H)].
Qed.

Section Files.
Context (cells : bool) (SIZE miter : Z) (Ds : list domain) (ws : list (list R)).
Definition put_rank (F : files) (r : Z) : res files := do D <- get Ds r; do w <- get ws r; ret (write_rank cells SIZE miter F r D w).
Lemma write_all order : NoDup order -> (forall r, In r order -> get Ds r = Ok (domain_of Ds r) /\ get ws r = Ok (nthZ [] ws r)) -> forall F, exists F', foldM put_rank order F = Ok F' /\
  (forall r m, fs_vtu F' r m = if mem r order && (m =? miter) then Some (grid_of cells (domain_of Ds r) (nthZ [] ws r)) else fs_vtu F r m) /\
  forall m, fs_pvtu F' m = if mem 0 order && (1 <? SIZE) && (m =? miter) then Some (match fs_pvtu F m with None => [] | Some k => k end ++ index_text cells SIZE miter) else fs_pvtu F m.
Proof.
  induction order as [|r order IH]; intros ND G F; cbn [foldM].
  - exists F. split; [reflexivity|]. split; intros; reflexivity.
  - inversion ND as [|? ? NI ND']; subst. destruct (G r (or_introl eq_refl)) as (G1 & G2). unfold put_rank at 1. rewrite G1, G2. cbn [bind]. destruct (IH ND' (fun r H => G r (or_intror H)) (write_rank cells SIZE miter F r (domain_of Ds r) (nthZ [] ws r))) as (F' & E & V & P).
    exists F'. split; [exact E|]. split.
    + intros r' m. rewrite V. unfold mem. cbn [existsb]. rewrite (Z.eqb_sym r' r). fold (mem r' order). destruct (Z.eqb_spec r r') as [<-|N].
      * assert (M : mem r order = false) by (apply mem_not_In; exact NI). rewrite M. cbn [andb orb]. unfold write_rank. destruct ((r =? 0) && (1 <? SIZE)); cbn [fs_vtu append_text write_grid]; rewrite Z.eqb_refl; cbn [andb]; reflexivity.
      * cbn [orb]. destruct (mem r' order && (m =? miter)); [reflexivity|]. unfold write_rank. destruct ((r =? 0) && (1 <? SIZE)); cbn [fs_vtu append_text write_grid]; replace (r' =? r) with false by lia; reflexivity.
    + intros m. rewrite P. unfold mem. cbn [existsb]. fold (mem 0 order). unfold write_rank. destruct (Z.eqb_spec r 0) as [-> |N].
      * assert (M : mem 0 order = false) by (apply mem_not_In; exact NI). rewrite M. cbn [andb orb Z.eqb]. destruct (1 <? SIZE); cbn [andb fs_pvtu append_text write_grid]; [|reflexivity]. destruct (m =? miter); reflexivity.
      * replace (0 =? r) with false by lia. cbn [andb orb fs_pvtu write_grid]. reflexivity.
Qed.
End Files.

Lemma documents_app a b : documents (a ++ b) = documents a + documents b.
Proof. unfold documents. rewrite filter_app, zlen_app. reflexivity. Qed.
Lemma pieces_app a b : pieces (a ++ b) = pieces a ++ pieces b.
Proof. unfold pieces. apply flat_map_app. Qed.
Lemma index_documents cells SIZE m : documents (index_text cells SIZE m) = 1.
Proof.
  unfold index_text. rewrite !documents_app. assert (A : documents (index_head cells) = 1) by (destruct cells; reflexivity). assert (C : documents [Text "</PUnstructuredGrid>\n"; Text "</VTKFile>"] = 0) by reflexivity. rewrite A, C.
  assert (B : documents (map (fun i => Piece i m) (range SIZE)) = 0); [|lia]. induction (range SIZE) as [|i l IH]; [reflexivity|]. exact IH.
Qed.
Lemma index_pieces cells SIZE m : pieces (index_text cells SIZE m) = map (fun r => (r, m)) (range SIZE).
Proof.
  unfold index_text. rewrite !pieces_app. assert (A : pieces (index_head cells) = []) by (destruct cells; reflexivity). assert (C : pieces [Text "</PUnstructuredGrid>\n"; Text "</VTKFile>"] = []) by reflexivity. rewrite A, C, app_nil_r. cbn [app].
  induction (range SIZE) as [|i l IH]; [reflexivity|]. unfold pieces in *. cbn [map flat_map app]. rewrite IH. reflexivity.
Qed.

Lemma index_announces fld SIZE m : announces fld (index_text (on_cells fld) SIZE m).
Proof.
  assert (G : forall on s, In (Text s) (index_text on SIZE m) -> In (Text s) (index_head on) \/ In (Text s) [Text "</PUnstructuredGrid>\n"; Text "</VTKFile>"]).
  { intros on s H. unfold index_text in H. apply in_app_iff in H as [H|H]; [auto|]. apply in_app_iff in H as [H|H]; [|auto]. apply in_map_iff in H as (i & H & _). discriminate H. }
  assert (N : forall on s, (forallb (fun x => match x with Text t => negb (String.eqb t s) | _ => true end) (index_head on ++ [Text "</PUnstructuredGrid>\n"; Text "</VTKFile>"])) = true -> ~ In (Text s) (index_text on SIZE m)).
  { intros on s H I. apply G in I. apply in_app_iff in I. rewrite forallb_forall in H. specialize (H _ I). cbn in H. rewrite String.eqb_refl in H. discriminate H. }
  destruct fld; cbn [on_cells announces]; (split; [unfold index_text; apply in_or_app; left; cbn; tauto | apply N; reflexivity]).
Qed.

Section Save.
Context (dim SIZE : Z) (cells : list (list Z)) (nodes : list pt) (labels npart0 epart : list Z) (st : setting).
Context (VM : valid_mesh dim cells nodes labels) (VS : valid_split dim SIZE cells nodes npart0 epart) (RP : represents dim SIZE cells nodes labels epart (se_domains st)).
Context (CS : forall r, 0 <= r < SIZE -> consistent dim (domain_of (se_domains st) r)).
Notation Dr r := (domain_of (se_domains st) r).
Lemma doms r : 0 <= r < SIZE -> get (se_domains st) r = Ok (Dr r).
Proof. intros H. apply get_nthZ. rewrite (rp_count _ _ _ _ _ _ _ RP). exact H. Qed.
Lemma pas r : 0 <= r < SIZE -> part_of dim cells nodes labels epart r (Dr r). Proof. exact (rp_part _ _ _ _ _ _ _ RP r). Qed.
(** every rank has a cell *)
Lemma inhabited r : 0 <= r < SIZE -> exists c, iscell cells c /\ owner epart c = r.
Proof.
  intros Hr. destruct (Z.eq_dec SIZE 1) as [E|N].
  - destruct (vs_alone _ _ _ _ _ _ VS E) as (H & _). exists 0. assert (H0 : iscell cells 0) by (unfold iscell; lia). split; [exact H0|]. pose proof (proj2 (vs_owners _ _ _ _ _ _ VS) 0 H0). lia.
  - pose proof (vs_size _ _ _ _ _ _ VS). destruct (proj2 (proj2 (vs_several _ _ _ _ _ _ VS ltac:(lia))) r Hr) as (a & b & F & Ha & _ & Ho & _). exists a. split; [exact (proj1 Ha) | exact Ho].
Qed.
Lemma parts_all : Permutation (concat (map (owned cells epart) (range SIZE))) (range (zlen cells)).
Proof.
  rewrite <- flat_map_concat_map. apply NoDup_Permutation.
  - apply NoDup_flat_map; [apply NoDup_range | intros x _; apply NoDup_filter, NoDup_range|]. intros x y z _ _ Hx Hy. unfold owned in Hx, Hy. apply filter_In in Hx, Hy. lia.
  - apply NoDup_range.
  - intros c. rewrite in_flat_map. split.
    + intros (r & _ & H). unfold owned in H. apply filter_In in H. exact (proj1 H).
    + intros H. apply in_range in H. pose proof (proj2 (vs_owners _ _ _ _ _ _ VS) c H). exists (owner epart c). split; [apply in_range; assumption|]. unfold owned. apply filter_In. split; [apply in_range; exact H | lia].
Qed.
(** a node of a rank is a node of one of its cells *)
Lemma node_of_cell r k : 0 <= r < SIZE -> isnode_of (Dr r) k -> exists c, iscell cells c /\ In (gnode (Dr r) k) (cell cells c).
Proof. intros Hr Hk. destruct (proj1 (proj2 (pa_nodes _ _ _ _ _ _ _ (pas r Hr)) (gnode (Dr r) k))) as (c & A & _ & B); [apply nthZ_In; exact Hk|]. exists c. auto. Qed.

Definition sizes_ok (on : bool) (ws : list (list R)) : Prop := zlen ws = SIZE /\ forall r, 0 <= r < SIZE -> zlen (nthZ [] ws r) = if on then zlen (dm_loctoglob (Dr r)) else zlen (dm_vertex (Dr r)).
Lemma passed_sizes fld values : passed SIZE st fld values -> exists ws, values = map Some ws /\ sizes_ok (on_cells fld) ws.
Proof. destruct fld; intros (ws & E & L & H); exists ws; (split; [exact E|]); (split; [exact L|]); intros r Hr; exact (proj1 (H r Hr)). Qed.
Lemma positive on r : 0 <= r < SIZE -> 0 < (if on : bool then zlen (dm_loctoglob (Dr r)) else zlen (dm_vertex (Dr r))).
Proof.
  intros Hr. destruct (inhabited r Hr) as (c & Hc & Ho). pose proof (pas r Hr) as PA. destruct (gcell_onto dim cells nodes labels epart r (Dr r) PA c Hc Ho) as (a & Ha & _).
  destruct on; [unfold iscell_of in Ha; lia|]. destruct (pa_sizes _ _ _ _ _ _ _ PA) as (_ & _ & _ & _ & _ & _ & E & _). rewrite E.
  assert (NE : exists k, In k (cell cells c)). { pose proof (wm_rows _ _ _ (vm_mesh _ _ _ _ VM) (cell cells c) (nthZ_In [] cells c Hc)) as (L & _). destruct (cell cells c) as [|k l]; [|exists k; left; reflexivity]. pose proof (wm_dim _ _ _ (vm_mesh _ _ _ _ VM)). cbn in L. lia. }
  destruct NE as (k & Hk). assert (H : In k (dm_nodeglob (Dr r))) by (apply (proj2 (pa_nodes _ _ _ _ _ _ _ PA)); exists c; auto). destruct (dm_nodeglob (Dr r)); [destruct H|]. rewrite zlen_cons. pose proof (zlen_nonneg l). lia.
Qed.
(** what a call of save does *)
Lemma save_ok on order dt time niter miter ws F : Permutation order (range SIZE) -> sizes_ok on ws -> exists F' top,
  save on order SIZE st dt time niter miter (map Some ws) F = Ok (F', {| rp_niter := niter; rp_time := time; rp_dt := dt; rp_max := top |}) /\
  (forall r m, fs_vtu F' r m = if (0 <=? r) && (r <? SIZE) && (m =? miter) then Some (grid_of on (Dr r) (nthZ [] ws r)) else fs_vtu F r m) /\
  (forall m, fs_pvtu F' m = if (1 <? SIZE) && (m =? miter) then Some (match fs_pvtu F m with None => [] | Some k => k end ++ index_text on SIZE miter) else fs_pvtu F m) /\
  (forall r x, 0 <= r < SIZE -> In x (nthZ [] ws r) -> (x <= top)%R) /\ exists r, 0 <= r < SIZE /\ In top (nthZ [] ws r).
Proof.
  intros PO (LW & SZ). pose proof (vs_size _ _ _ _ _ _ VS) as HS. unfold save.
  assert (E1 : mapM (fun r => do D <- get (se_domains st) r; do v <- get (map Some ws) r; check_value on D v) (range SIZE) = Ok ws).
  { rewrite (mapM_ok _ (fun r => nthZ [] ws r)). - rewrite <- LW, map_nthZ_range. reflexivity.
    - intros r Hr. apply in_range in Hr. rewrite (doms r Hr). cbn [bind]. rewrite (get_nthZ None) by (rewrite zlen_map; lia). cbn [bind]. rewrite (nthZ_map _ []) by lia. cbn [check_value].
      destruct (pa_sizes _ _ _ _ _ _ _ (pas r Hr)) as (S1 & _). rewrite (SZ r Hr), S1. destruct on; rewrite Z.eqb_refl; reflexivity. }
  rewrite E1. cbn [bind].
  assert (PM : forall r, 0 <= r < SIZE -> exists m, py_max (nthZ [] ws r) = Ok m /\ In m (nthZ [] ws r) /\ forall y, In y (nthZ [] ws r) -> (y <= m)%R) by (intros r Hr; apply py_max_ok; rewrite (SZ r Hr); apply positive; exact Hr).
  destruct (Proofs_run5.mapM_range_ex 0%R (fun r => py_max (nthZ [] ws r)) (fun r m => In m (nthZ [] ws r) /\ forall y, In y (nthZ [] ws r) -> (y <= m)%R) SIZE) as (ms & E2 & L2 & V2); [lia|exact PM|].
  assert (E2' : mapM py_max ws = Ok ms). { rewrite <- (map_nthZ_range [] ws), mapM_map, LW. exact E2. } rewrite E2'. cbn [bind].
  destruct (py_max_ok ms ltac:(lia)) as (top & E3 & I3 & M3). rewrite E3. cbn [bind].
  destruct (write_all on SIZE miter (se_domains st) ws order) with (F := F) as (F' & E4 & V4 & P4). { apply (Permutation_NoDup (Permutation_sym PO)), NoDup_range. }
  { intros r Hr. apply (Permutation_in _ PO) in Hr. apply in_range in Hr. split; [exact (doms r Hr) | apply get_nthZ; lia]. }
  unfold put_rank in E4. rewrite E4. cbn [bind]. exists F', top. split; [reflexivity|].
  assert (ME : forall r, mem r order = (0 <=? r) && (r <? SIZE)). { intros r. destruct (mem r order) eqn:E; symmetry. - apply mem_In in E. apply (Permutation_in _ PO), in_range in E. lia. - apply mem_not_In in E. apply not_true_is_false. intros H. apply E. apply (Permutation_in _ (Permutation_sym PO)), in_range. lia. }
  split; [intros r m; rewrite V4, ME; reflexivity|]. split; [intros m; rewrite P4, ME; replace ((0 <=? 0) && (0 <? SIZE)) with true by lia; reflexivity|]. split.
  - intros r x Hr Hx. destruct (V2 r Hr) as (_ & H). specialize (H x Hx). pose proof (M3 (nthZ 0%R ms r) ltac:(apply nthZ_In; lia)). lra.
  - destruct (In_nthZ 0%R _ _ I3) as (r & Hr & <-). exists r. rewrite L2 in Hr. split; [exact Hr | exact (proj1 (V2 r Hr))].
Qed.
(** the grid of a rank *)
Lemma grid_shows fld ws r : passed SIZE st fld (map Some ws) -> 0 <= r < SIZE -> shows dim cells nodes fld (owned cells epart r) (grid_of (on_cells fld) (Dr r) (nthZ [] ws r)).
Proof.
  intros PS Hr. pose proof (pas r Hr) as PA. destruct (pa_sizes _ _ _ _ _ _ _ PA) as (S1 & _ & _ & _ & _ & _ & S2 & _). pose proof (pa_cells _ _ _ _ _ _ _ PA) as EC. rewrite <- EC. unfold shows, row, grid_of. cbn [gr_shape gr_cells gr_points gr_data].
  rewrite (cs_dim _ _ (CS r Hr)). split; [reflexivity|]. split; [exact S1|].
  assert (NB : forall j, 0 <= j < zlen (dm_loctoglob (Dr r)) -> forall k, In k (nthZ [] (dm_cellnodes (Dr r)) j) -> isnode_of (Dr r) k) by (intros j Hj; apply Forall_forall, (proj1 (pa_numbers _ _ _ _ _ _ _ PA) j Hj)).
  split; [intros j Hj k Hk; rewrite S2; exact (NB j Hj k Hk)|].
  assert (ML : map Some ws = map Some ws -> True) by auto. clear ML.
  destruct fld as [X|N]; cbn [on_cells passed] in *.
  - destruct PS as (ws' & E & L & H). assert (ws' = ws) as ->. { clear - E. revert ws E. induction ws' as [|a t IH]; intros [|b u] E; try discriminate E; [reflexivity|]. injection E as -> E. f_equal. apply IH. exact E. }
    destruct (H r Hr) as (L1 & V). exists (nthZ [] ws r). split; [reflexivity|]. split; [exact L1|]. intros j Hj. assert (G : nthZ 0 (dm_loctoglob (Dr r)) j = gcell (Dr r) j) by (apply nthZ_indep; exact Hj). rewrite G. split; [|exact (V j Hj)].
    apply Permutation_trans with (map (at_node nodes) (map (gnode (Dr r)) (nthZ [] (dm_cellnodes (Dr r)) j))); [|apply Permutation_map; exact (proj1 (pa_cell _ _ _ _ _ _ _ PA j Hj))].
    rewrite map_map. apply Permutation_refl'. apply map_ext_in. intros k Hk. exact (proj1 (pa_node _ _ _ _ _ _ _ PA k (NB j Hj k Hk))).
  - destruct PS as (ws' & E & L & H). assert (ws' = ws) as ->. { clear - E. revert ws E. induction ws' as [|a t IH]; intros [|b u] E; try discriminate E; [reflexivity|]. injection E as -> E. f_equal. apply IH. exact E. }
    destruct (H r Hr) as (L1 & V). exists (nthZ [] ws r). split; [reflexivity|]. split; [exact L1|]. intros j Hj. assert (G : nthZ 0 (dm_loctoglob (Dr r)) j = gcell (Dr r) j) by (apply nthZ_indep; exact Hj). rewrite G.
    apply Permutation_trans with (map (fun k => (at_node nodes k, N k)) (map (gnode (Dr r)) (nthZ [] (dm_cellnodes (Dr r)) j))); [|apply Permutation_map; exact (proj1 (pa_cell _ _ _ _ _ _ _ PA j Hj))].
    rewrite map_map. apply Permutation_refl'. apply map_ext_in. intros k Hk. rewrite (proj1 (pa_node _ _ _ _ _ _ _ PA k (NB j Hj k Hk))), (V k (NB j Hj k Hk)). reflexivity.
Qed.
Lemma saved_ok fld ws m F : passed SIZE st fld (map Some ws) -> (forall r, 0 <= r < SIZE -> fs_vtu F r m = Some (grid_of (on_cells fld) (Dr r) (nthZ [] ws r))) -> saved dim SIZE cells nodes fld m F.
Proof.
  intros PS H. pose proof (vs_size _ _ _ _ _ _ VS). exists (map (owned cells epart) (range SIZE)). split; [rewrite zlen_map, zlen_range; lia|]. split; [exact parts_all|]. intros r Hr. eexists. split; [exact (H r Hr)|]. rewrite (nthZ_map _ 0) by (rewrite zlen_range; lia). rewrite nthZ_range by lia. apply grid_shows; assumption.
Qed.
Lemma largest_ok fld ws top : passed SIZE st fld (map Some ws) -> (forall r x, 0 <= r < SIZE -> In x (nthZ [] ws r) -> (x <= top)%R) -> (exists r, 0 <= r < SIZE /\ In top (nthZ [] ws r)) -> largest cells fld top.
Proof.
  intros PS HM (r & Hr & HI). destruct fld as [X|N]; cbn [passed largest] in *; destruct PS as (ws' & E & L & H);
  (assert (ws' = ws) as -> by (clear - E; revert ws E; induction ws' as [|a t IH]; intros [|b u] E; try discriminate E; [reflexivity|]; injection E as -> E; f_equal; apply IH; exact E)).
  - split.
    + intros c Hc. pose proof (proj2 (vs_owners _ _ _ _ _ _ VS) c Hc) as Ho. destruct (gcell_onto dim cells nodes labels epart _ _ (pas _ Ho) c Hc eq_refl) as (a & Ha & G). destruct (H _ Ho) as (L1 & V). rewrite <- G, <- (V a Ha). apply (HM (owner epart c)); [exact Ho|]. apply nthZ_In. rewrite L1. exact Ha.
    + destruct (H r Hr) as (L1 & V). destruct (In_nthZ 0%R _ _ HI) as (a & Ha & Ea). rewrite L1 in Ha. exists (gcell (Dr r) a). split; [exact (proj1 (gcell_owned dim cells nodes labels epart r (Dr r) (pas r Hr) a Ha))|]. rewrite <- (V a Ha). exact Ea.
  - split.
    + intros c k Hc Hk. pose proof (proj2 (vs_owners _ _ _ _ _ _ VS) c Hc) as Ho. destruct (H _ Ho) as (L1 & V). destruct (pa_sizes _ _ _ _ _ _ _ (pas _ Ho)) as (_ & _ & _ & _ & _ & _ & S2 & _).
      assert (HG : In k (dm_nodeglob (Dr (owner epart c)))) by (apply (proj2 (pa_nodes _ _ _ _ _ _ _ (pas _ Ho))); exists c; auto). destruct (In_nthZ (-1) _ _ HG) as (i & Hi & Ei). rewrite <- Ei. change (nthZ (-1) (dm_nodeglob (Dr (owner epart c))) i) with (gnode (Dr (owner epart c)) i). rewrite <- (V i Hi). apply (HM (owner epart c)); [exact Ho|]. apply nthZ_In. rewrite L1, S2. exact Hi.
    + destruct (H r Hr) as (L1 & V). destruct (pa_sizes _ _ _ _ _ _ _ (pas r Hr)) as (_ & _ & _ & _ & _ & _ & S2 & _). destruct (In_nthZ 0%R _ _ HI) as (a & Ha & Ea). rewrite L1, S2 in Ha. destruct (node_of_cell r a Hr Ha) as (c & Hc & Hk). exists c, (gnode (Dr r) a). split; [exact Hc|]. split; [exact Hk|]. rewrite <- (V a Ha). exact Ea.
Qed.
End Save.
