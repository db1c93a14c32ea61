(** * Properties_linsys: C38, C39, C40, C50 and a stronger form of C26.
    Vocabulary: [Spec_linsys]. *)
From Verif Require Import Py PyLemmas Model_part Model_label Model_conn Spec_conn Model_geom Spec_geom Model_interp Spec_interp Proofs_conn1 Proofs_label Proofs_interp1 Proofs_interp2 Proofs_interp4 Properties_interp Model_bc Proofs_bc
  Model_linsys Spec_linsys Proofs_linsys1 Proofs_linsys2 Proofs_linsys3 Proofs_linsys4 Proofs_linsys5 Proofs_linsys6 Proofs_linsys7 Proofs_fvm1.
From Coq Require Import Permutation Lra ZifyBool Sorted.
Open Scope Z_scope.

(** ** glue *)
Definition no_stale (dim : Z) (S : lsys) : Prop := if dim =? 2 then NP2 S else NP3 S.
Lemma regular_no_stale dim S L : regular dim S L -> no_stale dim S.
Proof.
  intros RG. unfold no_stale. destruct (dim =? 2) eqn:Ed.
  - intros k Hk HF. destruct (Z.eq_dec (periodic_neighbours S k) 0) as [E|E]; [exact E|]. destruct (rg_per _ _ _ RG k Hk E) as (_ & X & _). congruence.
  - intros k Hk. destruct (Z.eq_dec (periodic_neighbours S k) 0) as [E|E]; [exact E|]. destruct (rg_per _ _ _ RG k Hk E) as (X & _). lia.
Qed.
Lemma triplets_ok dim S L nf nhg b : wf_lsys dim S L nf nhg ->
  (zlen (all_entries dim S L) <= zlen b -> exists es, agrees (no_stale dim S) es (all_entries dim S L) /\ triplets dim S L b = Ok (es ++ skipn (length es) b)) /\
  (zlen b < zlen (all_entries dim S L) -> triplets dim S L b = Err IndexError).
Proof.
  intros WF. unfold no_stale, triplets. destruct (wn_dim _ _ _ _ (wy_N _ _ _ _ _ WF)) as [-> | ->]; cbn [Z.eqb Pos.eqb].
  - apply (triplet2_ok S L nf nhg WF).
  - destruct (triplet3_ok S L nf nhg WF b) as (A & B). split; intros H.
    + destruct (A H) as (es & cc & AG & E & _). exists es. split; [exact AG|]. rewrite E. reflexivity.
    + rewrite (B H). reflexivity.
Qed.
Lemma size_ok dim S L nf nhg : wf_lsys dim S L nf nhg -> matrix_size dim S L = Ok (zlen (all_entries dim S L) + if dim =? 2 then zlen (sl_halo L) else 0).
Proof.
  intros WF. unfold matrix_size. destruct (wn_dim _ _ _ _ (wy_N _ _ _ _ _ WF)) as [-> | ->]; cbn [Z.eqb Pos.eqb].
  - apply (size2_ok S L nf nhg WF).
  - rewrite Z.add_0_r. apply (size3_ok S L nf nhg WF).
Qed.
Lemma assembly_ok dim S L nf nhg : wf_lsys dim S L nf nhg -> exists es, agrees (no_stale dim S) es (all_entries dim S L) /\
  assembly dim S L = Ok (es ++ repeat e0 (Z.to_nat (if dim =? 2 then zlen (sl_halo L) else 0))).
Proof.
  intros WF. unfold assembly. rewrite (size_ok dim S L nf nhg WF). cbn [bind]. set (k := if dim =? 2 then zlen (sl_halo L) else 0). set (m := zlen (all_entries dim S L)).
  assert (Hk : 0 <= k) by (unfold k; destruct (dim =? 2); [apply zlen_nonneg | lia]). assert (Hm : 0 <= m) by apply zlen_nonneg.
  destruct (triplets_ok dim S L nf nhg (repeat e0 (Z.to_nat (m + k))) WF) as (A & _). destruct A as (es & AG & E). { unfold zlen at 2. rewrite repeat_length. fold m. lia. }
  exists es. split; [exact AG|]. unfold triplets in E. cbv zeta. rewrite E. f_equal. f_equal.
  pose proof (agrees_len _ _ _ AG) as EL. rewrite EL. replace (Z.to_nat (m + k)) with (length (all_entries dim S L) + Z.to_nat k)%nat by (unfold m, zlen; lia).
  rewrite repeat_app. clear. generalize (length (all_entries dim S L)) (repeat e0 (Z.to_nat k)). intros a l. induction a as [|a IH]; [reflexivity | exact IH].
Qed.
Lemma local_rhs_ok dim S L nf nhg B : wf_lsys dim S L nf nhg -> wf_bord S L B -> local_rhs dim S L B = foldM (addk (fun c => c)) (all_adds dim S L B) (zeros_o (nbcells S)).
Proof.
  intros WF WB. unfold local_rhs. destruct (wn_dim _ _ _ _ (wy_N _ _ _ _ _ WF)) as [-> | ->]; cbn [Z.eqb Pos.eqb]; [apply (rhs_loc_2d S L nf nhg WF B WB) | apply (rhs_loc_3d S L nf nhg WF B WB)].
Qed.
Lemma global_rhs_ok dim gs S L nf nhg B : wf_lsys dim S L nf nhg -> wf_bord S L B -> global_rhs dim gs S L B = foldM (addk (global_cell S)) (all_adds dim S L B) (zeros_o gs).
Proof.
  intros WF WB. unfold global_rhs. destruct (wn_dim _ _ _ _ (wy_N _ _ _ _ _ WF)) as [-> | ->]; cbn [Z.eqb Pos.eqb]; [apply (rhs_glob_2d S L nf nhg WF B WB) | apply (rhs_glob_3d S L nf nhg WF B WB)].
Qed.
Lemma zeros_o_len n : 0 <= n -> zlen (zeros_o n) = n.
Proof. intros H. unfold zeros_o. rewrite zlen_map. apply zlen_range. exact H. Qed.
Lemma zeros_o_at n i : 0 <= i < n -> nthZ None (zeros_o n) i = Some 0%R.
Proof. intros H. unfold zeros_o. rewrite (nthZ_map _ 0) by (rewrite zlen_range; lia). reflexivity. Qed.

(** rows are local cells, columns local or halo cells *)
Section Range.
Context (dim : Z) (S : lsys) (L : sylists) (nf nhg : Z) (WF : wf_lsys dim S L nf nhg).
Definition own (r : Z) : Prop := exists i, 0 <= i < nbcells S /\ r = global_cell S i.
Definition known (c : Z) : Prop := own c \/ exists h, 0 <= h < nbhalos S /\ c = global_halo S h.
Lemma around_known per k p c : 0 <= k < nbnodes S -> In (p, c) (around dim S per k) -> known c.
Proof.
  intros Hk H. destruct (wy_rows _ _ _ _ _ WF k Hk) as (_ & (_ & _ & RH) & (_ & _ & RP)). destruct (wn_cell _ _ _ _ (wy_N _ _ _ _ _ WF) k Hk) as (_ & _ & RC).
  assert (Q1 : In (p, c) (cells_at S k) -> known c). { intros Q. apply in_map_iff in Q as (i & E & Hi). injection E as _ <-. left. exists i. split; [apply RC; exact Hi | reflexivity]. }
  assert (Q2 : In (p, c) (ghosts_at S k) -> known c). { intros Q. apply in_map_iff in Q as (e & E & He). injection E as _ <-. left. exists (g_cell e). split; [apply (wy_ghost _ _ _ _ _ WF k e Hk He) | reflexivity]. }
  assert (Q3 : In (p, c) (haloghosts_at S k) -> known c). { intros Q. apply in_map_iff in Q as (e & E & He). injection E as _ <-. right. exists (g_cell e). split; [apply (wy_haloghost _ _ _ _ _ WF k e Hk He) | reflexivity]. }
  assert (Q4 : In (p, c) (halos_at S k) -> known c). { intros Q. apply in_map_iff in Q as (h & E & Hh). injection E as _ <-. right. exists h. split; [apply RH; exact Hh | reflexivity]. }
  assert (Q5 : In (p, c) (if per then periodics_at S k else []) -> known c). { destruct per; [|intros []]. intros Q. apply in_map_iff in Q as (i & E & Hi). injection E as _ <-. left. exists i. split; [apply RP; exact Hi | reflexivity]. }
  unfold around in H. destruct (dim =? 2); rewrite !in_app_iff in H; tauto.
Qed.
Lemma pair_range l r param a col x c : row_cells S l r -> known col -> In (x, c) (map fst (pair_entries S l r param a col)) -> own x /\ known c.
Proof.
  intros (Hl & Hr) K. unfold pair_entries. destruct r as [r|]; cbn [map fst In]; intros H.
  - destruct H as [E|[E|[]]]; injection E as <- <-; (split; [eexists; split; [|reflexivity]; assumption | exact K]).
  - destruct H as [E|[]]; injection E as <- <-. split; [eexists; split; [|reflexivity]; assumption | exact K].
Qed.
Lemma nodes_range l r per f x c : row_cells S l r -> 0 <= f < zlen (fd_cellid (sy_G S)) -> In (x, c) (map fst (nodes_entries dim S l r per f)) -> own x /\ known c.
Proof.
  intros HR Hf H. apply in_map_iff in H as (e & E & H). unfold nodes_entries in H. apply in_flat_map in H as ((q & k) & Hk & H). cbn [fst snd] in H. unfold node_entries in H. destruct (is_dir S k); [destruct H|].
  apply in_flat_map in H as ((p & col) & Hp & H). cbn [fst snd] in H.
  assert (Bk : 0 <= k < nbnodes S).
  { assert (HK : forall j, 0 <= j < dim -> 0 <= nthZ 0 (nodes_of S f) j < nbnodes S) by (intros j Hj; apply (get2_nodes dim S L nf nhg WF f j Hf Hj)). unfold weighted_nodes in Hk. destruct (wn_dim _ _ _ _ (wy_N _ _ _ _ _ WF)) as [Ed|Ed]; [replace (dim =? 2) with true in Hk by lia | replace (dim =? 2) with false in Hk by lia]; cbn [In] in Hk.
    - destruct Hk as [Q|[Q|[]]]; injection Q as _ <-; apply HK; lia.
    - destruct Hk as [Q|[Q|[Q|[Q|[]]]]]; injection Q as _ <-; apply HK; lia. }
  apply (pair_range l r q (weight dim S k p) col x c HR (around_known per k p col Bk Hp)). rewrite <- E. apply in_map. exact H.
Qed.
Lemma entries_range x c : In (x, c) (map fst (all_entries dim S L)) -> own x /\ known c.
Proof.
  unfold all_entries. rewrite !map_app, !in_app_iff. intros [H|[H|H]]; apply in_map_iff in H as (e & E & H); apply in_flat_map in H as (f & Hf & H); apply (in_map fst) in H; rewrite E in H; clear E e.
  - destruct (wy_inner _ _ _ _ _ WF f Hf) as (Hf' & _). destruct (face_left_cell dim S L nf nhg WF f Hf') as (_ & B1). destruct (face_right_cell dim S L nf nhg WF f Hf) as (_ & B2).
    unfold inner_entries in H. cbv zeta in H. rewrite !map_app, !in_app_iff in H. destruct H as [H|[H|H]].
    + destruct H as [E|[]]. injection E as <- <-. split; [|left]; eexists; (split; [|reflexivity]); assumption.
    + apply (nodes_range (left_cell S f) (Some (right_cell S f)) true f); [split; assumption | assumption | assumption].
    + destruct H as [E|[E|[E|[]]]]; injection E as <- <-; (split; [|left]; eexists; (split; [|reflexivity]); assumption).
  - destruct (wy_halo _ _ _ _ _ WF f Hf) as (Hf' & _). destruct (face_left_cell dim S L nf nhg WF f Hf') as (_ & B1). destruct (face_halo dim S L nf nhg WF f Hf) as (_ & B2).
    assert (Q : forall p1 p3, In (x, c) (map fst [(global_cell S (left_cell S f), global_cell S (left_cell S f), p1 : option R); (global_cell S (left_cell S f), global_halo S (nthZ 0 (fd_halofid (sy_G S)) f), p3)]) -> own x /\ known c).
    { intros p1 p3 [E|[E|[]]]; injection E as <- <-; (split; [eexists; split; [|reflexivity]; assumption|]); [left | right]; eexists; (split; [|reflexivity]); assumption. }
    unfold halo_entries in H. cbv zeta in H. destruct (dim =? 2); rewrite map_app, in_app_iff in H; destruct H as [H|H]; try (eapply Q; exact H); apply (nodes_range (left_cell S f) None false f); [split; [assumption|exact I] | assumption | assumption | split; [assumption|exact I] | assumption | assumption].
  - destruct (wy_dir _ _ _ _ _ WF f Hf) as (Hf' & _). destruct (face_left_cell dim S L nf nhg WF f Hf') as (_ & B1).
    unfold dir_entries in H. cbv zeta in H. destruct H as [E|[E|[]]]; injection E as <- <-; (split; [|left]; eexists; (split; [|reflexivity]); assumption).
Qed.
End Range.

(** ** C38 *)
(** The size computed beforehand is the number of entries the assembly writes, plus one per partition-boundary face in 2D; with arrays of at
    least [m] entries the assembly succeeds, fills exactly the first m positions, row by row of local cells, and leaves the others; with
    shorter arrays it runs over the end. *)
Theorem C38_buffer_size : forall dim S L nf nhg, wf_lsys dim S L nf nhg ->
  exists n m, matrix_size dim S L = Ok n /\ 0 <= m /\ n = m + (if dim =? 2 then zlen (sl_halo L) else 0) /\
  (forall b, m <= zlen b -> exists es, triplets dim S L b = Ok (es ++ skipn (Z.to_nat m) b) /\ zlen es = m /\
     forall r c v, In (r, c, v) es -> (exists i, 0 <= i < nbcells S /\ r = global_cell S i) /\
       ((exists j, 0 <= j < nbcells S /\ c = global_cell S j) \/ (exists h, 0 <= h < nbhalos S /\ c = global_halo S h))) /\
  (forall b, zlen b < m -> triplets dim S L b = Err IndexError) /\
  exists es, assembly dim S L = Ok es /\ zlen es = n.
Proof.
  intros dim S L nf nhg WF. exists (zlen (all_entries dim S L) + if dim =? 2 then zlen (sl_halo L) else 0), (zlen (all_entries dim S L)).
  split; [apply (size_ok dim S L nf nhg WF)|]. split; [apply zlen_nonneg|]. split; [reflexivity|]. split; [|split].
  - intros b Hb. destruct (triplets_ok dim S L nf nhg b WF) as (A & _). destruct (A Hb) as (es & AG & E). exists es. pose proof (agrees_len _ _ _ AG) as EL.
    assert (EZ : zlen es = zlen (all_entries dim S L)) by (unfold zlen; rewrite EL; reflexivity). split; [rewrite E, EL; unfold zlen; rewrite Nat2Z.id; reflexivity|]. split; [exact EZ|].
    intros r c v Hin. assert (HI : In (r, c) (map fst (all_entries dim S L))). { destruct AG as (<- & _). unfold entry. apply (in_map fst _ (r, c, v)). exact Hin. }
    clear - WF HI. apply (entries_range dim S L nf nhg WF r c HI).
  - intros b Hb. destruct (triplets_ok dim S L nf nhg b WF) as (_ & B). apply B. exact Hb.
  - destruct (assembly_ok dim S L nf nhg WF) as (es & AG & E). eexists. split; [exact E|]. pose proof (agrees_len _ _ _ AG) as EL. unfold entry in *. rewrite zlen_app. unfold zlen at 1 2. rewrite repeat_length, EL. destruct (dim =? 2); [pose proof (zlen_nonneg (sl_halo L))|]; unfold zlen in *; lia.
Qed.
Print Assumptions C38_buffer_size.

(** ** C39 *)
Section Op.
Context (dim : Z) (S : lsys) (L : sylists) (nf nhg : Z) (WF : wf_lsys dim S L nf nhg) (RG : regular dim S L).
Lemma system_face f : in_system L f -> 0 <= f < zlen (fd_cellid (sy_G S)).
Proof. intros [H|[H|H]]; [apply (wy_inner _ _ _ _ _ WF f H) | apply (wy_halo _ _ _ _ _ WF f H) | apply (wy_dir _ _ _ _ _ WF f H)]. Qed.
(** kinds of faces exclude each other *)
Lemma kinds f : (In f (sl_inner L) -> ~ In f (sl_halo L) /\ ~ In f (sl_dir L)) /\ (In f (sl_halo L) -> ~ In f (sl_dir L)).
Proof.
  assert (P10 : is_periodic dim 10 = false) by (unfold is_periodic, is_x, is_y, is_z; cbn; destruct (dim =? 3); reflexivity).
  split.
  - intros H. destruct (wy_inner _ _ _ _ _ WF f H) as (_ & A). split; intros Q.
    + destruct (wy_halo _ _ _ _ _ WF f Q) as (_ & E). rewrite E in A. destruct A as [A|A]; [lia | congruence].
    + destruct (wy_dir _ _ _ _ _ WF f Q) as (_ & E1 & E2 & _). destruct A as [A|A]; [contradiction | congruence].
  - intros H Q. destruct (wy_halo _ _ _ _ _ WF f H) as (_ & E). destruct (wy_dir _ _ _ _ _ WF f Q) as (_ & _ & _ & E2). contradiction.
Qed.
Lemma gradient_exists f wl wr vn : in_system L f -> exists g, diamond_gradient dim (sy_G S) f wl wr vn g.
Proof.
  intros Hf. pose proof (system_face f Hf) as Hf'. destruct (rg_face _ _ _ RG f Hf) as (HN & HS).
  set (W := {| w_c := map (fun _ => wl) (range (nbcells S)); w_ghost := []; w_halo := []; w_haloghost := [] |}). set (w_node := map vn (range (zlen (fd_vertex (sy_G S))))).
  destruct (fgrad_diamond dim (sy_G S) (wy_G _ _ _ _ _ WF) W w_node f Hf' HN HS wr) as (g & _ & H1 & H2 & H3). exists g. split; [exact H1|].
  destruct (face_left_cell dim S L nf nhg WF f Hf') as (_ & BL).
  assert (EL : left_value (sy_G S) W f = wl). { unfold left_value, W. cbn [w_c]. rewrite (nthZ_map _ 0) by (rewrite zlen_range by apply zlen_nonneg; exact BL). reflexivity. }
  rewrite EL in H2. split; [exact H2|]. intros a b Ha Hb. rewrite (H3 a b Ha Hb).
  destruct (wfa_face _ _ (wy_G _ _ _ _ _ WF) f Hf') as (_ & _ & _ & BN & _).
  unfold w_node. rewrite !(nthZ_map _ 0) by (rewrite zlen_range by apply zlen_nonneg; apply BN; assumption). rewrite !nthZ_range by (apply BN; assumption). reflexivity.
Qed.
Lemma gradient_flux_unique f wl wr vn vn' g g' : in_system L f -> (forall k, In k (nodes_of S f) -> vn k = vn' k) -> diamond_gradient dim (sy_G S) f wl wr vn g -> diamond_gradient dim (sy_G S) f wl wr vn' g' ->
  vdot g (nthZ vzero (fd_normal (sy_G S)) f) = vdot g' (nthZ vzero (fd_normal (sy_G S)) f).
Proof.
  intros Hf EV H H'. pose proof (system_face f Hf) as Hf'. destruct (rg_face _ _ _ RG f Hf) as (HN & HS).
  assert (H2 : diamond_gradient dim (sy_G S) f wl wr vn g'). { destruct H' as (A & B & C). split; [exact A|]. split; [exact B|]. intros a b Ha Hb. rewrite !EV by assumption. apply C; assumption. }
  pose proof (flux_ok dim (sy_G S) (wy_G _ _ _ _ _ WF) f wl wr vn g Hf' HN HS H) as E1. pose proof (flux_ok dim (sy_G S) (wy_G _ _ _ _ _ WF) f wl wr vn g' Hf' HN HS H2) as E2. congruence.
Qed.
Context (B : bord) (x : Z -> R) (wn : list (option R)).
Lemma right_exists f : in_system L f -> exists r, value_right S L B x f r.
Proof.
  intros Hf. unfold value_right. destruct (kinds f) as (K1 & K2). destruct Hf as [H|[H|H]].
  - eexists. split; [intros _; reflexivity|]. split; intros Q; exfalso; apply K1 in H; tauto.
  - eexists. split; [|split; [intros _; reflexivity|]]; intros Q; exfalso; [apply K1 in Q; tauto | apply K2 in H; tauto].
  - eexists. split; [|split; [|intros _; reflexivity]]; intros Q; exfalso; [apply K1 in Q; tauto | apply K2 in Q; tauto].
Qed.
Lemma right_unique f r r' : in_system L f -> value_right S L B x f r -> value_right S L B x f r' -> r = r'.
Proof. intros [H|[H|H]] (A1 & A2 & A3) (B1 & B2 & B3); [rewrite A1, B1 by exact H | rewrite A2, B2 by exact H | rewrite A3, B3 by exact H]; reflexivity. Qed.
Lemma node_values_exist f : nodes_finite S L wn -> in_system L f -> exists vn, node_values S L B wn f vn.
Proof.
  intros FIN Hf. destruct (kinds f) as (K1 & K2).
  assert (D : In f (sl_dir L) \/ (~ In f (sl_dir L) /\ (In f (sl_inner L) \/ In f (sl_halo L)))). { destruct Hf as [H|[H|H]]; [right | right | left]; [split; [apply K1 | ]; auto | split; [apply K2|]; auto | exact H]. }
  destruct D as [D|(D1 & D2)].
  - exists (nthZ 0%R (pb_node B)). intros k Hk. split; [reflexivity|]. intros Q. exfalso. destruct Q as [Q|Q]; [apply K1 in Q | apply K2 in Q]; tauto.
  - exists (fun k => if is_dir S k then nthZ 0%R (pb_node B) k else match nthZ None wn k with Some v => v | None => 0%R end). intros k Hk. split; [contradiction|]. intros _.
    destruct (is_dir_spec S k) as (I1 & I2). destruct (is_dir S k); split.
    + reflexivity.
    + intros Q. contradiction (Q (I1 eq_refl)).
    + intros Q. contradiction (I2 eq_refl Q).
    + intros Q. specialize (FIN f k D2 Hk Q). destruct (nthZ None wn k); [reflexivity | contradiction].
Qed.
Lemma node_values_unique f vn vn' : in_system L f -> node_values S L B wn f vn -> node_values S L B wn f vn' -> forall k, In k (nodes_of S f) -> vn k = vn' k.
Proof.
  intros Hf H H' k Hk. destruct (H k Hk) as (A1 & A2). destruct (H' k Hk) as (B1 & B2).
  assert (Q : In f (sl_inner L) \/ In f (sl_halo L) -> vn k = vn' k).
  { intros Q. destruct (A2 Q) as (A3 & A4). destruct (B2 Q) as (B3 & B4). destruct (is_dir_spec S k) as (I1 & I2). destruct (is_dir S k); [rewrite A3, B3 by (apply I1; reflexivity); reflexivity|].
    specialize (A4 (I2 eq_refl)). specialize (B4 (I2 eq_refl)). congruence. }
  destruct Hf as [F|[F|F]]; [apply Q; auto | apply Q; auto | rewrite A1, B1 by exact F; reflexivity].
Qed.
Lemma flux_exists f : nodes_finite S L wn -> in_system L f -> exists v, diamond_flux dim S L B wn x f v.
Proof.
  intros FIN Hf. destruct (node_values_exist f FIN Hf) as (vn & HV). destruct (right_exists f Hf) as (r & HR). destruct (gradient_exists f (value_left S x f) r vn Hf) as (g & HG).
  eexists. exists vn, g, r. split; [exact HV|]. split; [exact HR|]. split; [exact HG | reflexivity].
Qed.
Lemma flux_unique f v v' : in_system L f -> diamond_flux dim S L B wn x f v -> diamond_flux dim S L B wn x f v' -> v = v'.
Proof.
  intros Hf (vn & g & r & HV & HR & HG & ->) (vn' & g' & r' & HV' & HR' & HG' & ->). rewrite <- (right_unique f r r' Hf HR HR') in HG'.
  apply (gradient_flux_unique f (value_left S x f) r vn vn' g g' Hf); [apply (node_values_unique f vn vn' Hf HV HV') | exact HG | exact HG'].
Qed.
(** a choice of fluxes for a finite list of faces *)
Lemma choose (P : Z -> R -> Prop) (l : list Z) : (forall f, In f l -> exists v, P f v) -> exists F, forall f, In f l -> P f (F f).
Proof.
  induction l as [|a l IH]; intros H; [exists (fun _ => 0%R); intros f []|]. destruct (H a (or_introl eq_refl)) as (v & Hv). destruct IH as (F & HF); [intros; apply H; right; assumption|].
  exists (fun f => if f =? a then v else F f). intros f Hf. destruct (f =? a) eqn:E; [apply Z.eqb_eq in E; subst f; exact Hv | apply HF; destruct Hf as [Hf|Hf]; [lia | exact Hf]].
Qed.
End Op.

(** For every field x: the row of A for cell i applied to x, minus the right-hand side of cell i, is 1/volume times the sum over the faces
    of cell i of the flux leaving it; each flux is the diamond gradient of x (with the interpolated node values and the Dirichlet data) dotted with
    the normal, and is determined by that. *)
Theorem C39_operator : forall dim S L nf nhg B, wf_lsys dim S L nf nhg -> wf_bord S L B -> regular dim S L ->
  exists es rhs, assembly dim S L = Ok es /\ local_rhs dim S L B = Ok rhs /\ zlen rhs = nbcells S /\
  forall x W wn, samples S x W -> wf_values W (nbcells S) nf (nbhalos S) nhg -> centertovertex dim (sy_N S) (sy_nv S) W = Ok wn -> nodes_finite S L wn ->
  exists flux, (forall f, in_system L f -> diamond_flux dim S L B wn x f (flux f) /\ forall v, diamond_flux dim S L B wn x f v -> v = flux f) /\
  forall i, 0 <= i < nbcells S -> residual S es rhs x i = Some (/ nthZ 0 (sy_vol S) i * leaving S L flux i)%R.
Proof.
  intros dim S L nf nhg B WF WB RG. destruct (assembly_ok dim S L nf nhg WF) as (es & (_ & AG) & EA). specialize (AG (regular_no_stale dim S L RG)). subst es.
  assert (HN : 0 <= nbcells S) by apply zlen_nonneg.
  destruct (addk_sum (all_adds dim S L B) (zeros_o (nbcells S))) as (rhs & ER & EL & HR). { intros iv Hiv. rewrite zeros_o_len by exact HN. apply (adds_range dim S L nf nhg WF B iv Hiv). }
  rewrite zeros_o_len in EL, HR by exact HN. eexists. exists rhs. split; [exact EA|]. split; [rewrite (local_rhs_ok dim S L nf nhg B WF WB); exact ER|]. split; [exact EL|].
  intros x W wn HS HW Hwn FIN.
  destruct (choose (fun f v => diamond_flux dim S L B wn x f v) (sl_inner L ++ sl_halo L ++ sl_dir L)) as (flux & HF).
  { intros f Hf. rewrite !in_app_iff in Hf. apply (flux_exists dim S L nf nhg WF RG B x wn f FIN Hf). }
  assert (HF' : forall f, in_system L f -> diamond_flux dim S L B wn x f (flux f)) by (intros f Hf; apply HF; rewrite !in_app_iff; exact Hf).
  exists flux. split.
  - intros f Hf. split; [apply HF'; exact Hf|]. intros v Hv. exact (flux_unique dim S L nf nhg WF RG B x wn f v (flux f) Hf Hv (HF' f Hf)).
  - intros i Hi. destruct (all_balance dim S L nf nhg WF RG B x W HS HW wn Hwn i Hi flux HF') as (a & r & A1 & A2 & A3).
    unfold residual. rewrite row_sum_app, A1, row_sum_zeros, HR by exact Hi. rewrite zeros_o_at by exact Hi. rewrite A2. cbn [oadd]. f_equal. unfold vol in A3. rewrite <- A3. ring.
Qed.
Print Assumptions C39_operator.

(** hence: x satisfies row i of the system iff the fluxes through the faces of cell i balance *)
Theorem C39_solution : forall dim S L nf nhg B es rhs x W wn flux i, wf_lsys dim S L nf nhg -> wf_bord S L B -> regular dim S L ->
  assembly dim S L = Ok es -> local_rhs dim S L B = Ok rhs -> samples S x W -> wf_values W (nbcells S) nf (nbhalos S) nhg ->
  centertovertex dim (sy_N S) (sy_nv S) W = Ok wn -> nodes_finite S L wn -> (forall f, in_system L f -> diamond_flux dim S L B wn x f (flux f)) -> 0 <= i < nbcells S ->
  (row_sum es (global_cell S i) x = nthZ None rhs i <-> leaving S L flux i = 0%R).
Proof.
  intros dim S L nf nhg B es rhs x W wn flux i WF WB RG EA ER HS HW Hwn FIN HF Hi. destruct (C39_operator dim S L nf nhg B WF WB RG) as (es' & rhs' & EA' & ER' & _ & H).
  assert (es' = es) by congruence. assert (rhs' = rhs) by congruence. subst es' rhs'. destruct (H x W wn HS HW Hwn FIN) as (flux' & HF' & HR). specialize (HR i Hi).
  assert (EF : leaving S L flux' i = leaving S L flux i).
  { unfold leaving. f_equal; [f_equal|]; f_equal; apply map_ext_in; intros f Hf; rewrite (proj2 (HF' f ltac:(unfold in_system; tauto)) _ (HF f ltac:(unfold in_system; tauto))); reflexivity. }
  rewrite EF in HR. unfold residual in HR. destruct (row_sum es (global_cell S i) x) as [a|]; [|discriminate]. destruct (nthZ None rhs i) as [r|]; [|discriminate]. injection HR as HR.
  pose proof (rg_vol _ _ _ RG i Hi) as HV. split.
  - intros E. injection E as ->. apply (Rmult_eq_reg_l (/ nthZ 0%R (sy_vol S) i)%R); [|apply Rinv_neq_0_compat; exact HV]. rewrite <- HR. ring.
  - intros E. rewrite E, Rmult_0_r in HR. f_equal. lra.
Qed.
Print Assumptions C39_solution.

(** consistency: if around the cell i the field and the data are those of an affine function, row i of A x - rhs is the gradient applied to the sum of
    the outward normals, over the volume: zero for a closed cell (C20) *)
Theorem C39_affine_exact : forall dim S L nf nhg B es rhs x W wn a g i, wf_lsys dim S L nf nhg -> wf_bord S L B -> regular dim S L ->
  assembly dim S L = Ok es -> local_rhs dim S L B = Ok rhs -> samples S x W -> wf_values W (nbcells S) nf (nbhalos S) nhg ->
  centertovertex dim (sy_N S) (sy_nv S) W = Ok wn -> nodes_finite S L wn -> gradient dim g -> 0 <= i < nbcells S ->
  (forall f, in_system L f -> left_cell S f = i \/ (In f (sl_inner L) /\ right_cell S f = i) ->
     value_left S x f = affine a g (face_left (sy_G S) f) /\ value_right S L B x f (affine a g (fst (face_other dim (sy_G S) f))) /\
     node_values S L B wn f (fun k => affine a g (at_node (fd_vertex (sy_G S)) k))) ->
  residual S es rhs x i = Some (/ nthZ 0 (sy_vol S) i * outward_normals S L g i)%R.
Proof.
  intros dim S L nf nhg B es rhs x W wn a g i WF WB RG EA ER HS HW Hwn FIN Hg Hi HX. destruct (C39_operator dim S L nf nhg B WF WB RG) as (es' & rhs' & EA' & ER' & _ & H).
  assert (es' = es) by congruence. assert (rhs' = rhs) by congruence. subst es' rhs'. destruct (H x W wn HS HW Hwn FIN) as (flux & HF & HR). rewrite (HR i Hi). f_equal. f_equal.
  assert (HA : forall f, in_system L f -> left_cell S f = i \/ (In f (sl_inner L) /\ right_cell S f = i) -> flux f = vdot g (nthZ vzero (fd_normal (sy_G S)) f)).
  { intros f Hf Hc. symmetry. apply (proj2 (HF f Hf)). destruct (HX f Hf Hc) as (H1 & H2 & H3). eexists. exists g. eexists. split; [exact H3|]. split; [exact H2|]. split; [|reflexivity].
    rewrite H1. split; [exact Hg|]. split; [unfold affine, vdot, vsub; cbn [px py pz]; ring|]. intros p q _ _. unfold affine, vdot, vsub. cbn [px py pz]. ring. }
  unfold outward_normals, leaving. f_equal; [f_equal|]; f_equal; apply map_ext_in; intros f Hf.
  - destruct (left_cell S f =? i) eqn:E1, (right_cell S f =? i) eqn:E2; try (rewrite HA; [reflexivity | left; exact Hf | first [left; lia | right; split; [exact Hf | lia]]]); reflexivity.
  - destruct (left_cell S f =? i) eqn:E1; [|reflexivity]. apply HA; [right; left; exact Hf | left; lia].
  - destruct (left_cell S f =? i) eqn:E1; [|reflexivity]. apply HA; [right; right; exact Hf | left; lia].
Qed.
Print Assumptions C39_affine_exact.

(** ** C40 *)
(** The right-hand side in global numbering is the local one, scattered through the global cell numbers, and zero elsewhere. *)
Theorem C40_local_global : forall dim S L nf nhg B gs, wf_lsys dim S L nf nhg -> wf_bord S L B -> NoDup (sy_l2g S) -> (forall g, In g (sy_l2g S) -> 0 <= g < gs) -> 0 <= gs ->
  exists loc glob, local_rhs dim S L B = Ok loc /\ global_rhs dim gs S L B = Ok glob /\ zlen loc = nbcells S /\ zlen glob = gs /\
  (forall c, 0 <= c < nbcells S -> nthZ None glob (global_cell S c) = nthZ None loc c) /\
  (forall j, 0 <= j < gs -> ~ In j (sy_l2g S) -> nthZ None glob j = Some 0%R).
Proof.
  intros dim S L nf nhg B gs WF WB ND HG Hgs. rewrite (local_rhs_ok dim S L nf nhg B WF WB), (global_rhs_ok dim gs S L nf nhg B WF WB).
  assert (HN : 0 <= nbcells S) by apply zlen_nonneg. destruct (wy_len _ _ _ _ _ WF) as (_ & EL & _).
  assert (HC : forall c, 0 <= c < nbcells S -> In (global_cell S c) (sy_l2g S)) by (intros c Hc; unfold global_cell; apply nthZ_In; lia).
  destruct (addk_global (global_cell S) gs (all_adds dim S L B) (zeros_o (nbcells S)) (zeros_o gs)) as (r & h & E1 & E2 & L1 & L2 & P1 & P2); rewrite ?zeros_o_len by assumption.
  - intros iv Hiv. apply (adds_range dim S L nf nhg WF B iv Hiv).
  - intros c Hc. apply HG, HC, Hc.
  - intros c d Hc Hd E. unfold global_cell, nthZ in E. rewrite (NoDup_nth (sy_l2g S) 0) in ND. unfold zlen in EL. specialize (ND (Z.to_nat c) (Z.to_nat d) ltac:(lia) ltac:(lia)).
    replace (c <? 0) with false in E by lia. replace (d <? 0) with false in E by lia. specialize (ND E). lia.
  - reflexivity.
  - intros c Hc. rewrite !zeros_o_at by (try exact Hc; apply HG, HC, Hc). reflexivity.
  - intros j Hj _. apply zeros_o_at. exact Hj.
  - rewrite zeros_o_len in L1, P1, P2 by exact HN. exists r, h. split; [exact E1|]. split; [exact E2|]. split; [exact L1|]. split; [exact L2|]. split; [exact P1|].
    intros j Hj Q. apply P2; [exact Hj|]. intros c Hc E. apply Q. rewrite <- E. apply HC. exact Hc.
Qed.
Print Assumptions C40_local_global.

(** ** C26, stronger: for arbitrary values the face gradient is the diamond gradient: it reproduces the difference of the side values along the
    line of centres and the differences of the node values along the face, and no other vector does *)
Theorem C26_diamond : forall dim G L D W w_node g0, wf_facedata dim G -> lists_ok dim G L -> face_gradient_info dim G = Ok D ->
  zlen (w_c W) = zlen (fd_centerc G) -> zlen (w_ghost W) = zlen (fd_cellid G) -> zlen (w_halo W) = zlen (fd_centerh G) -> zlen w_node = zlen (fd_vertex G) -> zlen g0 = zlen (fd_cellid G) ->
  exists gs, face_gradient dim G D L W w_node g0 = Ok gs /\
  forall i, listed L i -> normal_of_nodes dim G i ->
    side (fd_vertex G) (nthZ [] (fd_nodes G) i) (fst (face_other dim G i)) <> side (fd_vertex G) (nthZ [] (fd_nodes G) i) (face_left G i) ->
    exists g, nthZ None gs i = Some g /\ diamond_gradient dim G i (left_value G W i) (value_at W (snd (face_other dim G i))) (nthZ 0%R w_node) g.
Proof.
  intros dim G L D W w_node g0 WF LO ED H1 H2 H3 H4 H5. rewrite (face_info_ok dim G WF) in ED. injection ED as <-.
  destruct (face_gradient_ok dim G WF W w_node L LO H1 H2 H3 H4 g0 H5) as (gs & E & _ & HG). exists gs. split; [exact E|]. intros i HL HN HS.
  assert (Hi : 0 <= i < zlen (fd_cellid G)). { destruct LO as (A & B & C & F). destruct HL as [Q|[Q|[Q|Q]]]; [apply (A i Q) | apply (B i Q) | apply (C i Q) | apply (F i Q)]. }
  destruct (HG i Hi) as (HG1 & _). rewrite (HG1 HL). apply (fgrad_diamond dim G WF W w_node i Hi HN HS).
Qed.
Print Assumptions C26_diamond.

(** ** the face lists and the boundary data of the constructor *)
Lemma sorted_le_NoDup l : StronglySorted Z.le l -> NoDup l -> StronglySorted Z.lt l.
Proof.
  induction 1 as [|a l H IH HA]; intros N; [constructor|]. inversion_clear N. constructor; [apply IH; assumption|]. rewrite Forall_forall in *. intros y Hy. specialize (HA y Hy).
  assert (a <> y) by (intros ->; contradiction). lia.
Qed.
(** the inner faces of the system are the faces labelled inner or 11, 33 (and 55 in 3D), each once, in increasing order *)
Theorem C39_inner_faces : forall dim name, StronglySorted Z.lt (matrixinnerfaces dim name) /\
  forall f, In f (matrixinnerfaces dim name) <-> 0 <= f < zlen name /\ (nthZ 0 name f = 0 \/ nthZ 0 name f = 11 \/ nthZ 0 name f = 33 \/ (dim = 3 /\ nthZ 0 name f = 55)).
Proof.
  intros dim name. assert (HI : forall f, In f (matrixinnerfaces dim name) <-> 0 <= f < zlen name /\ (nthZ 0 name f = 0 \/ nthZ 0 name f = 11 \/ nthZ 0 name f = 33 \/ (dim = 3 /\ nthZ 0 name f = 55))).
  { intros f. unfold matrixinnerfaces. rewrite np_sort_In, !in_app_iff. destruct (dim =? 3) eqn:E.
    - rewrite !In_where. assert (dim = 3) by lia. tauto.
    - rewrite !In_where. assert (dim <> 3) by lia. cbn [In]. tauto. }
  split; [|exact HI]. apply sorted_le_NoDup; [apply np_sort_sorted|]. unfold matrixinnerfaces. apply (Permutation_NoDup (Permutation_sym (np_sort_perm _))).
  assert (WN : forall v, NoDup (where_eq name v)) by (intros; unfold where_eq; apply NoDup_filter, NoDup_range).
  assert (DJ : forall u v, u <> v -> forall f, In f (where_eq name u) -> ~ In f (where_eq name v)) by (intros u v N f A B; apply In_where in A, B; lia).
  assert (NA : forall (a b : list Z), NoDup a -> NoDup b -> (forall f, In f a -> ~ In f b) -> NoDup (a ++ b)).
  { induction a as [|y a IH]; intros b Ha Hb Hd; [exact Hb|]. inversion_clear Ha. cbn. constructor; [rewrite in_app_iff; intros [Q|Q]; [contradiction | apply (Hd y); [left; reflexivity | exact Q]] | apply IH; auto; intros f Hf; apply Hd; right; exact Hf]. }
  assert (NB : NoDup (if dim =? 3 then where_eq name 55 else [])) by (destruct (dim =? 3); [apply WN | constructor]).
  assert (DB : forall u f, u <> 55 -> In f (where_eq name u) -> ~ In f (if dim =? 3 then where_eq name 55 else [])) by (intros u f N Hf; destruct (dim =? 3); [apply (DJ u 55 N f Hf) | intros []]).
  apply NA; [apply WN | apply NA; [apply WN | apply NA; [apply WN | exact NB|] |] |]; intros f Hf; rewrite ?in_app_iff; intros Q.
  - exact (DB 33 f ltac:(lia) Hf Q).
  - destruct Q as [Q|Q]; [exact (DJ 11 33 ltac:(lia) f Hf Q) | exact (DB 11 f ltac:(lia) Hf Q)].
  - destruct Q as [Q|[Q|Q]]; [exact (DJ 0 11 ltac:(lia) f Hf Q) | exact (DJ 0 33 ltac:(lia) f Hf Q) | exact (DB 0 f ltac:(lia) Hf Q)].
Qed.
Print Assumptions C39_inner_faces.
