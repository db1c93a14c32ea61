(** * Properties_linsys2: the constructor of the linear system: C50 (solvers), C52 (boundary data), C54 (no side effects); C53: the gradient of the solution. *)
From Verif Require Import Py PyLemmas Model_part Model_label Model_conn Model_geom Spec_geom Model_interp Spec_interp Proofs_interp4 Model_bc Proofs_conn1 Proofs_label Proofs_bc Proofs_bc2 Model_linsys Spec_linsys Proofs_linsys1 Proofs_linsys2 Proofs_linsys4 Proofs_linsys8 Proofs_linsys9 Properties_linsys.
From Verif Require Import Spec_bc.
From Coq Require Import Permutation Lra ZifyBool Sorted.
Open Scope Z_scope.

(** ** C52 *)
Lemma apply_BCdirichlet D v o v' : apply D v o = Ok v' -> va_BCdirichlet v' = va_BCdirichlet v.
Proof.
  destruct o; cbn [apply]; unfold fill, update_ghost_value; intros E; apply bind_ok in E as (h & _ & E); injection E as <-; reflexivity.
Qed.
(** After any history of in-place changes of the arrays of the variable, the constructor of the linear system finds at the faces and nodes of the Dirichlet
    sides the values the dictionary prescribes there, and the labels in var.BCdirichlet are those of the Dirichlet sides. *)
Theorem C52_boundary_data : forall D bc vs ops, wf_bcdom D -> bc_settings D bc vs -> Forall (op_ok D) ops ->
  exists v0 v1 B, new_variable D (Some bc) (Some vs) = Ok v0 /\ foldM (apply D) ops v0 = Ok v1 /\ pbord D v1 = Ok B /\ boundary_data D bc vs B /\
  forall i, In i (va_BCdirichlet v1) <-> exists l, In (l, BDirichlet) bc /\ i = side_label l.
Proof.
  intros D bc vs ops WF (KN & CS & CO & DF & NS) HO.
  pose proof (loop_ok D WF vs bc [] (init_state D) (init_inv D vs) (proj1 KN) (proj2 KN) DF) as HL. rewrite (proj2 (good_consistent D WF bc vs KN) CS) in HL. cbn [app] in HL. destruct HL as (s & E & I).
  pose proof (loop2 D WF vs bc [] (init_state D) s (init_inv D vs) (init_inv2 D vs) (proj1 KN) (proj2 KN) DF E) as J. cbn [app] in J.
  unfold new_variable. rewrite E. cbn [bind]. set (v0 := {| va_heap := vs_heap s |}). pose proof (built_in_use D vs bc s I v0 eq_refl) as U0.
  destruct (run_in_use D WF vs bc s I NS KN CO ops _ _ U0 HO) as (v1 & E1 & U1). destruct U1 as (A1 & A2 & A3 & A4).
  destruct (pbord_ok D WF vs bc s I J KN CO v1 A2 A3) as (B & EB & BD).
  exists v0, v1, B. split; [reflexivity|]. split; [exact E1|]. split; [exact EB|]. split; [exact BD|].
  assert (EQ : va_BCdirichlet v1 = vs_bcd s).
  { change (vs_bcd s) with (va_BCdirichlet v0). apply (foldM_ok_inv (fun _ v => va_BCdirichlet v = va_BCdirichlet v0) _ _ _ _ E1 eq_refl). intros done x rest g g' _ IH Eg. rewrite <- IH. exact (apply_BCdirichlet D g x g' Eg). }
  intros i. rewrite EQ, (j_bcd _ _ _ _ J). rewrite in_flat_map. split.
  - intros ((l & t) & Hin & Hi). cbn [fst snd] in Hi. destruct t; try contradiction. destruct Hi as [<-|[]]. exists l. split; [exact Hin | reflexivity].
  - intros (l & Hin & ->). exists (l, BDirichlet). split; [exact Hin | left; reflexivity].
Qed.
Print Assumptions C52_boundary_data.

(** ** C50 *)
(** The documented default is spsolve.  Without a solver argument the constructor never succeeds; with a variable and tables that are in order it raises
    AttributeError. *)
Theorem C50_default_refuted : forall size rank gs red S D L user,
  (forall v x, new_linsys size rank gs red S D v L None user <> Ok x) /\
  forall bc vs ops nf nhg v0 v1, wf_bcdom D -> bc_settings D bc vs -> Forall (op_ok D) ops -> new_variable D (Some bc) (Some vs) = Ok v0 -> foldM (apply D) ops v0 = Ok v1 ->
    wf_lsys (bd_dim D) S L nf nhg -> new_linsys size rank gs red S D v1 L None user = Err AttributeError.
Proof.
  intros size rank gs red S D L user. split.
  - intros v x. unfold new_linsys. destruct (pbord D v); [|discriminate]. cbn [bind]. destruct (matrix_size _ S L); discriminate.
  - intros bc vs ops nf nhg v0 v1 WB ST HO E0 E1 WF. destruct (C52_boundary_data D bc vs ops WB ST HO) as (v0' & v1' & B & F0 & F1 & EB & _). assert (v0' = v0) by congruence. subst v0'. assert (v1' = v1) by congruence. subst v1'.
    unfold new_linsys. rewrite EB, (size_ok _ _ _ _ _ WF). reflexivity.
Qed.
Print Assumptions C50_default_refuted.

(** what a right-hand side given by the user does *)
Lemma add_rhs_ok a u : zlen u = zlen a -> exists b, add_rhs a (Some u) = Ok b /\ zlen b = zlen a /\ forall i, 0 <= i < zlen a -> nthZ None b i = oadd (nthZ None a i) (Some (nthZ 0%R u i)).
Proof.
  intros L. unfold add_rhs. rewrite L, Z.eqb_refl. eexists. split; [reflexivity|].
  assert (LC : zlen (combine a u) = zlen a). { unfold zlen in *. rewrite combine_length. lia. } split; [rewrite zlen_map; exact LC|].
  intros i Hi. rewrite (nthZ_map _ (None, 0%R)) by lia. unfold nthZ. rewrite combine_nth by (unfold zlen in L; lia). reflexivity.
Qed.
Lemma add_rhs_err a u : zlen u <> zlen a -> add_rhs a (Some u) = Err AssertionError.
Proof. intros N. unfold add_rhs. destruct (Z.eqb_spec (zlen u) (zlen a)); [contradiction | reflexivity]. Qed.

(** With a solver named: the size of the triplet arrays is the one of C38, and the right-hand side is the one of C40 (spsolve, sequential: global; petsc: local;
    mumps: global, summed over the processes on rank 0), plus the user's array if that has the right length, otherwise AssertionError.  spsolve and umfpack refuse parallel runs. *)
Theorem C50_solvers_partial : forall size rank gs red S D v L nf nhg B, wf_lsys (bd_dim D) S L nf nhg -> pbord D v = Ok B -> wf_bord S L B -> NoDup (sy_l2g S) -> (forall g, In g (sy_l2g S) -> 0 <= g < gs) -> 0 <= gs ->
  exists es gl lo, let n := zlen es in let new := new_linsys size rank gs red S D v L in
  let plus (a : list (option R)) (sol : solver) := new (Some sol) None = Ok {| li_size := n; li_rhs := Some a |} /\
     (forall u, zlen u = zlen a -> exists b, new (Some sol) (Some u) = Ok {| li_size := n; li_rhs := Some b |} /\ zlen b = zlen a /\ forall i, 0 <= i < zlen a -> nthZ None b i = oadd (nthZ None a i) (Some (nthZ 0%R u i))) /\
     (forall u, zlen u <> zlen a -> new (Some sol) (Some u) = Err AssertionError) in
  assembly (bd_dim D) S L = Ok es /\ global_rhs (bd_dim D) gs S L B = Ok gl /\ zlen gl = gs /\ local_rhs (bd_dim D) S L B = Ok lo /\ zlen lo = nbcells S /\
  (size = 1 -> plus gl SSpsolve) /\ (size <> 1 -> forall u, new (Some SSpsolve) u = Err AssertionError /\ new (Some SUmfpack) u = Err AssertionError) /\
  plus lo SPetsc /\ (rank = 0 -> plus (red gl) SMumps) /\ (rank <> 0 -> new (Some SMumps) None = Ok {| li_size := n; li_rhs := None |}).
Proof.
  intros size rank gs red S D v L nf nhg B WF EB WB ND RG GS. destruct (assembly_ok _ _ _ _ _ WF) as (es & AG & EA). destruct (C40_local_global _ _ _ _ _ _ _ WF WB ND RG GS) as (lo & gl & E1 & E2 & L1 & L2 & _).
  exists (es ++ repeat e0 (Z.to_nat (if bd_dim D =? 2 then zlen (sl_halo L) else 0))), gl, lo. intros n new plus. split; [exact EA|]. split; [exact E2|]. split; [exact L2|]. split; [exact E1|]. split; [exact L1|].
  assert (EN : matrix_size (bd_dim D) S L = Ok n).
  { rewrite (size_ok _ _ _ _ _ WF). unfold n. f_equal. rewrite zlen_app. pose proof (agrees_len _ _ _ AG) as EL. assert (EL' : zlen es = zlen (all_entries (bd_dim D) S L)) by (unfold zlen, entry in *; lia). rewrite EL'. f_equal. unfold zlen at 2. rewrite repeat_length. pose proof (zlen_nonneg (sl_halo L)). destruct (bd_dim D =? 2); lia. }
  assert (PL : forall a sol, (forall u, new (Some sol) u = do b <- add_rhs a u; ret {| li_size := n; li_rhs := Some b |}) -> plus a sol).
  { intros a sol H. unfold plus. split; [rewrite H; reflexivity|]. split.
    - intros u Hu. destruct (add_rhs_ok a u Hu) as (b & Eb & Lb & Vb). exists b. rewrite H, Eb. split; [reflexivity|]. split; assumption.
    - intros u Hu. rewrite H, (add_rhs_err a u Hu). reflexivity. }
  unfold new, new_linsys in *. rewrite EB, EN, ?E1, ?E2 in *. cbn [bind] in *.
  split; [intros ->; apply PL; intros u; rewrite E2; reflexivity|]. split; [intros NS u; destruct (Z.eqb_spec size 1); [contradiction | split; reflexivity]|].
  split; [apply PL; intros u; rewrite E1; reflexivity|]. split; [intros ->; apply PL; intros u; rewrite E2; reflexivity|]. intros NR. rewrite E2. cbn [bind]. destruct (Z.eqb_spec rank 0); [contradiction | reflexivity].
Qed.
Print Assumptions C50_solvers_partial.

(** with mumps a right-hand side given by the user is an error on every rank but 0: len(None) *)
Theorem C50_mumps_rhs_refuted : forall size rank gs red S D v L u x, rank <> 0 -> new_linsys size rank gs red S D v L (Some SMumps) (Some u) <> Ok x.
Proof.
  intros size rank gs red S D v L u x NR. unfold new_linsys. destruct (pbord D v) as [B|]; [|discriminate]. cbn [bind]. destruct (matrix_size _ S L); [|discriminate]. cbn [bind].
  destruct (global_rhs _ gs S L B); [|discriminate]. cbn [bind]. destruct (Z.eqb_spec rank 0); [contradiction | discriminate].
Qed.
Print Assumptions C50_mumps_rhs_refuted.

(** a side without an entry in the dictionary: the constructor raises AttributeError with every solver *)
Theorem C50_missing_side_refuted : forall size rank gs red S D v L sol user l, lookup (va_bcs v) l = None -> In l (sides (bd_dim D)) -> forall x, new_linsys size rank gs red S D v L sol user <> Ok x.
Proof.
  intros size rank gs red S D v L sol user l E Hl x. unfold new_linsys. assert (X : forall B, pbord D v <> Ok B).
  { unfold pbord. change (locs (bd_dim D)) with (sides (bd_dim D)). generalize (sides (bd_dim D)) Hl {| pb_node := zeros_like 0%R (bd_nbnodes D); pb_face := zeros_like 0%R (zlen (bd_name D)) |}. intros ls. induction ls as [|k ls IH]; [intros []|]. intros [->|H] B0 B; cbn [foldM].
    - rewrite E. discriminate.
    - destruct (match lookup (va_bcs v) k with Some _ => _ | None => _ end); [|discriminate]. cbn [bind]. apply IH. exact H. }
  destruct (pbord D v) as [B|]; [contradiction (X B eq_refl) | discriminate].
Qed.
Print Assumptions C50_missing_side_refuted.

(** ** C54 *)
(** Assembling the system in 3D leaves cells.center as it is when no node has periodic neighbours; otherwise see C54_centers_refuted. *)
Theorem C54_centers_unchanged : forall S L nf nhg b, wf_lsys 3 S L nf nhg -> (forall k, 0 <= k < nbnodes S -> periodic_neighbours S k = 0) ->
  forall n, matrix_size 3 S L = Ok n -> n <= zlen b -> exists es, get_triplet_3d S L b = Ok (es, nd_centerc (sy_N S)) /\ zlen es = zlen b.
Proof.
  intros S L nf nhg b WF NP n EN Hn. rewrite (size_ok _ _ _ _ _ WF) in EN. cbn [Z.eqb Pos.eqb] in EN. injection EN as EN. destruct (triplet3_ok S L nf nhg WF b) as (A & _). destruct A as (es & cc & AG & E & HC); [lia|].
  rewrite (HC NP) in E. eexists. split; [exact E|]. pose proof (agrees_len _ _ _ AG) as EL. unfold zlen, entry in *. rewrite app_length, skipn_length. lia.
Qed.
Print Assumptions C54_centers_unchanged.

(** ** C53 *)
(** compute_Sol_gradient stores at every listed face minus the diamond gradient of the solution (the electric field of a potential), taken with the node values and the mirrored
    face values of the Dirichlet data, and leaves the other faces alone. *)
Theorem C53_solution_gradient : forall dim S B L W w_node g, wf_facedata dim (sy_G S) -> face_gradient_info dim (sy_G S) = Ok (sy_D S) -> lists_ok dim (sy_G S) L ->
  zlen (w_c W) = zlen (fd_centerc (sy_G S)) -> zlen (w_ghost W) = zlen (fd_cellid (sy_G S)) -> zlen (w_halo W) = zlen (fd_centerh (sy_G S)) -> zlen w_node = zlen (fd_vertex (sy_G S)) ->
  zlen (nd_old (sy_N S)) = zlen (fd_vertex (sy_G S)) -> zlen (pb_node B) = zlen (fd_vertex (sy_G S)) -> zlen (pb_face B) = zlen (fd_cellid (sy_G S)) -> zlen g = zlen (fd_cellid (sy_G S)) ->
  exists gs, compute_P_gradient dim S B W w_node L g = Ok gs /\ zlen gs = zlen g /\
  forall i, 0 <= i < zlen g ->
    (~ listed L i -> nthZ None gs i = nthZ None g i) /\
    (listed L i -> normal_of_nodes dim (sy_G S) i ->
       side (fd_vertex (sy_G S)) (nodes_of S i) (fst (face_other dim (sy_G S) i)) <> side (fd_vertex (sy_G S)) (nodes_of S i) (face_left (sy_G S) i) ->
       exists e wr vn, nthZ None gs i = Some (vneg e) /\ (forall k, In k (nodes_of S i) -> sol_node S B w_node L i k (vn k)) /\ sol_right dim S B W L i wr /\
         diamond_gradient dim (sy_G S) i (left_value (sy_G S) W i) wr vn e).
Proof.
  intros dim S B L W w_node g WF ED LO H1 H2 H3 H4 H5 H6 H7 H8. destruct (compute_P_ok dim S B L W w_node WF ED LO H1 H2 H3 H4 H5 H6 H7 g H8) as (gs & E & Z & HG).
  exists gs. split; [exact E|]. split; [lia|]. intros i Hi. rewrite H8 in Hi. destruct (HG i Hi) as (D1 & D2 & D3). split; [exact D3|]. intros HL HN HS.
  destruct (in_dec Z.eq_dec i (fl_dirichlet L)) as [HD|HD].
  - destruct (fgrad_diamond dim (sy_G S) WF W (pb_node B) i Hi HN HS (2 * nthZ 0 (pb_face B) i - left_value (sy_G S) W i)%R) as (e & Ee & De). exists e, (2 * nthZ 0 (pb_face B) i - left_value (sy_G S) W i)%R, (nthZ 0%R (pb_node B)). specialize (D1 HD). unfold Pd in D1. rewrite Ee in D1.
    split; [exact D1|]. split; [intros k _|].
    { unfold sol_node. split; intros X; first [reflexivity | destruct X; contradiction | contradiction | idtac]. }
    split; [|exact De]. unfold sol_right. split; intros X; first [reflexivity | contradiction].
  - destruct (fgrad_diamond dim (sy_G S) WF W (eff S B w_node) i Hi HN HS (value_at W (snd (face_other dim (sy_G S) i)))) as (e & Ee & De). exists e, (value_at W (snd (face_other dim (sy_G S) i))), (nthZ 0%R (eff S B w_node)). specialize (D2 HL HD). unfold Pn in D2. rewrite Ee in D2.
    split; [exact D2|]. split; [|split; [unfold sol_right; split; intros X; first [reflexivity | contradiction] | exact De]].
    intros k Hk. assert (Hk' : 0 <= k < zlen (fd_vertex (sy_G S))) by (destruct (wfa_face _ _ WF i Hi) as (_ & _ & _ & R4 & _); apply R4; exact Hk).
    unfold sol_node. rewrite (eff_at S B w_node) by exact Hk'. unfold is_dir, dirichlet_node. rewrite <- (mem_In (nthZ 0 (nd_old (sy_N S)) k)). destruct (mem _ _); split.
    + reflexivity.
    + intros _ N. contradiction N. reflexivity.
    + intros [X|X]; [contradiction | discriminate X].
    + reflexivity.
Qed.
Print Assumptions C53_solution_gradient.
