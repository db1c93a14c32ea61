(** * Examples_interp: concrete data meeting the hypotheses of C24-C28, and the refutation of C25 for periodic 3D cells. *)
From Verif Require Import Py PyLemmas Model_part Model_conn Spec_conn Model_geom Spec_geom Model_halo Model_interp Spec_interp Proofs_interp1 Proofs_interp2 Proofs_interp3 Proofs_interp4 Proofs_interp5 Properties_interp.
From Coq Require Import Permutation Lra ZifyBool.
Open Scope Z_scope.

Lemma forallb_range p n : forallb p (range n) = true -> forall i, 0 <= i < n -> p i = true.
Proof. intros H i Hi. rewrite forallb_forall in H. apply H, in_range, Hi. Qed.
Definition row_okb (n : Z) (row : list Z) : bool :=
  (0 <? zlen row) && (0 <=? row_count row) && (row_count row <? zlen row) && forallb (fun c => (0 <=? c) && (c <? n)) (counted row).
Lemma row_okb_ok n row : row_okb n row = true -> row_ok n row.
Proof.
  unfold row_okb. intros H. apply andb_true_iff in H as (H & H4). apply andb_true_iff in H as (H & H3). apply andb_true_iff in H as (H1 & H2).
  split; [lia|]. split; [lia|]. intros c Hc. rewrite forallb_forall in H4. specialize (H4 c Hc). lia.
Qed.
Definition ghost_okb (n : Z) (row : list gentry) : bool :=
  (0 <? zlen row) && (negb (g_cell (nthZ gpad row 0) =? -1) || (zlen (real_ghosts row) =? 0)) && forallb (fun e => (0 <=? g_last e) && (g_last e <? n)) (real_ghosts row).
Lemma ghost_okb_ok n row : ghost_okb n row = true -> ghost_row_ok n row.
Proof.
  unfold ghost_okb. intros H. apply andb_true_iff in H as (H & H3). apply andb_true_iff in H as (H1 & H2).
  split; [lia|]. split; [|intros e He; rewrite forallb_forall in H3; specialize (H3 e He); lia].
  intros E. rewrite E in H2. cbn [Z.eqb Pos.eqb negb orb] in H2. destruct (real_ghosts row) as [|e l]; [reflexivity|]. rewrite zlen_cons in H2. pose proof (zlen_nonneg l). lia.
Qed.
Definition celldata_okb (dim : Z) (C : celldata) (nbnodes nf nhg : Z) : bool :=
  forallb (fun i => row_okb (zlen (cd_centerc C)) (nthZ [] (cd_cellnid C) i) && row_okb (zlen (cd_centerh C)) (nthZ [] (cd_halonid C) i) &&
      row_okb (zlen (cd_centerc C)) (nthZ [] (cd_periodicnid C) i) && (dim + 1 <=? zlen (nthZ [] (cd_nodes C) i)) &&
      forallb (fun k => (0 <=? k) && (k <? nbnodes)) (firstn (Z.to_nat (dim + 1)) (nthZ [] (cd_nodes C) i))) (range (zlen (cd_centerc C))) &&
  forallb (fun k => row_okb (zlen (cd_centerc C)) (nthZ [] (cd_periodic C) k) && ghost_okb nf (nthZ [] (cd_ghost C) k) && ghost_okb nhg (nthZ [] (cd_haloghost C) k)) (range nbnodes).
Lemma celldata_okb_ok dim C nbnodes nf nhg : (dim = 2 \/ dim = 3) ->
  zlen (cd_cellnid C) = zlen (cd_centerc C) /\ zlen (cd_halonid C) = zlen (cd_centerc C) /\ zlen (cd_nodes C) = zlen (cd_centerc C) /\
  zlen (cd_periodicnid C) = zlen (cd_centerc C) /\ zlen (cd_shift C) = zlen (cd_centerc C) /\ zlen (cd_periodic C) = nbnodes /\
  zlen (cd_old C) = nbnodes /\ zlen (cd_ghost C) = nbnodes /\ zlen (cd_haloghost C) = nbnodes ->
  celldata_okb dim C nbnodes nf nhg = true -> wf_celldata dim C nbnodes nf nhg.
Proof.
  intros Hd HL H. unfold celldata_okb in H. apply andb_true_iff in H as (H1 & H2). constructor; [exact Hd | exact HL | |].
  - intros i Hi. pose proof (forallb_range _ _ H1 i Hi) as H. cbv beta in H. rewrite !andb_true_iff in H. destruct H as ((((A & B) & C') & D) & E).
    split; [apply row_okb_ok; exact A|]. split; [apply row_okb_ok; exact B|]. split; [apply row_okb_ok; exact C'|]. split; [lia|]. intros k Hk. rewrite forallb_forall in E. specialize (E k Hk). lia.
  - intros k Hk. pose proof (forallb_range _ _ H2 k Hk) as H. cbv beta in H. rewrite !andb_true_iff in H. destruct H as ((A & B) & C'). split; [apply row_okb_ok; exact A|]. split; apply ghost_okb_ok; assumption.
Qed.

(** FINDING: "the gradient of a constant field is zero" fails in 3D for a cell with a periodic neighbour
    (pyccel_functions.py:270-286 accumulates into j_x, j_y, j_z the displacement instead of computing jx, jy, jz). *)
Definition per3 : celldata := {| cd_centerc := [P3 0 0 0; P3 1 0 0; P3 0 1 0; P3 0 0 1];
  cd_cellnid := [[1; 2; 3; 3]; [0; -1; -1; 1]; [0; -1; -1; 1]; [0; -1; -1; 1]]; cd_halonid := [[0; 0]; [0; 0]; [0; 0]; [0; 0]];
  cd_nodes := [[0; 1; 2; 3]; [0; 1; 2; 4]; [0; 1; 3; 4]; [0; 2; 3; 4]];
  cd_periodicnid := [[1; 1]; [-1; 0]; [-1; 0]; [-1; 0]]; cd_periodic := repeat [-1; 0] 5; cd_old := [0; 0; 0; 0; 0];
  cd_ghost := repeat [gpad] 5; cd_haloghost := repeat [gpad] 5; cd_centerh := []; cd_shift := [P3 3 0 0; P3 (-3) 0 0; P3 0 0 0; P3 0 0 0] |}.
Definition const3 : values := {| w_c := [1; 1; 1; 1]%R; w_ghost := []; w_halo := []; w_haloghost := [] |}.
Example per3_wf : wf_celldata 3 per3 5 0 0.
Proof. apply celldata_okb_ok; [auto | repeat split | lazy; reflexivity]. Qed.
Ltac odivs := repeat match goal with |- context [Req_EM_T ?a ?b] => destruct (Req_EM_T a b); [exfalso; lra|] end.
Theorem C25_periodic3d_refuted : wf_celldata 3 per3 5 0 0 /\ wf_values const3 (zlen (cd_centerc per3)) 0 (zlen (cd_centerh per3)) 0 /\
  (forall i, 0 <= i < 4 -> value_at const3 (Scell i) = 1%R) /\
  exists gs, cell_gradient 3 per3 const3 = Ok gs /\ nthZ None gs 0 = Some (P3 (-2) 0 0).
Proof.
  split; [exact per3_wf|]. split; [repeat split|].
  split; [intros i Hi; assert (D : i = 0 \/ i = 1 \/ i = 2 \/ i = 3) by lia; destruct D as [-> | [-> | [-> | ->]]]; reflexivity|].
  eexists. split; [lazy -[Rplus Rmult Rminus Rdiv Rinv Ropp IZR Req_EM_T]; reflexivity|].
  match goal with |- nthZ None (?a :: _) 0 = _ => change (a = Some (P3 (-2) 0 0)) end. odivs. f_equal. f_equal; field.
Qed.
Print Assumptions C25_periodic3d_refuted.
