(** * Proofs_run21: variables with dirichlet, neumann and nonslip sides on all the ranks; friction and time step. *)
From Coq Require Import Reals Lra Psatz Permutation Sorted.
From Verif Require Import Py PyLemmas Model_part Spec_part Model_label Model_conn Spec_conn Proofs_conn1 Proofs_conn2 Model_geom Spec_geom Proofs_geom1 Proofs_geom2 Proofs_geom3
  Model_halo Spec_halo Model_interp Spec_interp Spec_lsq Proofs_lsq Model_fvm Spec_fvm Proofs_fvm1 Proofs_fvm2 Model_bc Spec_bc Spec_bc3 Proofs_label Proofs_bc Proofs_bc2 Proofs_bc3 Model_domain Spec_domain
  Model_comm Model_parallel Spec_parallel Proofs_parallel1 Model_run Spec_run Proofs_run1 Proofs_run2 Proofs_run3 Proofs_run4 Proofs_run5 Proofs_run6 Spec_run2 Model_run2 Proofs_run7 Proofs_run8 Proofs_run9 Proofs_run10 Proofs_run11 Proofs_run12 Proofs_run13 Proofs_run14.
From Verif Require Import Model_sw Proofs_sw5 Proofs_sw6 Proofs_sw7 Model_run3 Spec_run4 Proofs_run17 Proofs_run18 Proofs_run19 Proofs_run20.
From Verif Require Spec_sw Properties_sw Proofs_sw8.
Open Scope Z_scope.

(** *** the conditions of h, hc and Z *)
Lemma free_in l t : In (l, t) free <-> In l (sides 2) /\ t = BNeumann.
Proof. unfold free. rewrite in_map_iff. split; [intros (k & E & H); injection E as -> <-; auto | intros (H & ->); exists l; auto]. Qed.
Lemma free_first : dirichlet_first free.
Proof. unfold free. cbn. repeat split; intros _ l H; repeat destruct H as [H|H]; try discriminate H; destruct H. Qed.
Lemma free_valid : bc_valid 2 free [].
Proof.
  split; [|split; [|split; [|split]]].
  - unfold free. rewrite map_map. cbn. repeat constructor; cbn; intuition discriminate.
  - intros l t H. apply free_in in H as (A & ->). auto.
  - intros l H. apply in_map_iff. exists (l, BNeumann). split; [reflexivity | apply free_in; auto].
  - exact free_first.
  - intros l H. apply free_in in H as (_ & H). discriminate H.
Qed.
Lemma valid_flow bc vs : bc_valid 2 bc vs -> flow_bc bc vs.
Proof. intros (A & B & C & D & E). split; [exact A|]. split; [|auto]. intros l t H. destruct (B l t H) as (X & [Y|Y]); auto. Qed.
Lemma free_flow : flow_bc free [].
Proof. apply valid_flow, free_valid. Qed.
Lemma free_corners cells labels epart : corners_whole 2 cells labels free epart.
Proof. unfold corners_whole. intros ? ? l ?. intros. exfalso. match goal with H : In (_, BDirichlet) free |- _ => apply free_in in H as (_ & X); discriminate X end. Qed.
Lemma free_value nodes labels F x : boundary_value 2 nodes labels free [] F x = x.
Proof. unfold boundary_value. destruct (find _ free) as [(l & t)|] eqn:E; [|reflexivity]. apply find_some in E as (H & _). apply free_in in H as (_ & ->). reflexivity. Qed.
Lemma free_readable D : nonslip_readable D free.
Proof. intros l i e H. apply free_in in H as (_ & H). discriminate H. Qed.
Lemma valid_readable D bc vs : bc_valid 2 bc vs -> nonslip_readable D bc.
Proof. intros (_ & A & _) l i e H. destruct (A l _ H) as (_ & [X|X]); discriminate X. Qed.

(** *** friction *)
Lemma friction_some E dt w g : fe_Mann E = g -> (0 < q_h w)%R -> friction_factor E dt w <> 0%R -> friction_cell w g981 g dt = Some (slowed E dt w).
Proof.
  intros <- Hh HF. unfold friction_cell. destruct (Rlt_dec 0 (q_h w)); [|contradiction]. cbv zeta. fold (friction_factor E dt w). unfold odiv. destruct (Req_EM_T (friction_factor E dt w) 0); [contradiction|]. reflexivity.
Qed.
Lemma friction_inv E dt w g w' : fe_Mann E = g -> friction_cell w g981 g dt = Some w' -> (0 < q_h w)%R /\ friction_factor E dt w <> 0%R.
Proof.
  intros <- H. unfold friction_cell in H. destruct (Rlt_dec 0 (q_h w)) as [P|]; [|discriminate H]. split; [exact P|]. cbv zeta in H. fold (friction_factor E dt w) in H. unfold odiv in H.
  destruct (Req_EM_T (friction_factor E dt w) 0) as [|N]; [discriminate H | exact N].
Qed.

Section Rank21.
Context (cells : list (list Z)) (nodes : list pt) (labels epart : list Z) (r : Z) (D : domain).
Hypothesis VM : valid_mesh 2 cells nodes labels.
Hypothesis PA : part_of 2 cells nodes labels epart r D.
Hypothesis CS : consistent 2 D.
Notation gc := (gcell D).
Lemma not_periodic l : In l (sides 2) -> ~ side_periodic (dom_bc D) l.
Proof.
  intros A SP. unfold side_periodic in SP. cbn [dom_bc bd_name] in SP.
  destruct (In_nthZ 0 _ _ SP) as (f & Hf & E). assert (If : isface D f) by (unfold isface; rewrite <- (proj1 (faces_count 2 cells nodes labels epart r D PA CS)); exact Hf).
  pose proof (Proofs_run4.name_cases 2 cells nodes labels epart r D PA f If) as N. rewrite E in N.
  unfold sides in A. cbn [Z.eqb In] in A. repeat (destruct A as [<-|A]; [cbn [periodic_label] in N; lia|]); destruct A.
Qed.
Lemma settings_flow bc vs : flow_bc bc vs -> nonslip_readable (dom_bc D) bc -> bc_settings (dom_bc D) bc vs.
Proof.
  intros (ND & TY & CO & DF & VL) NS. unfold bc_settings, bc_known, bc_consistent, bc_complete. cbn [dom_bc bd_dim]. rewrite (cs_dim _ _ CS).
  split; [|split; [|split; [|split]]].
  - split; [exact ND|]. intros l t Hin. destruct (TY l t Hin) as (A & [-> | [-> | ->]]); (split; [exact A|]); split; discriminate.
  - split; [|exact VL]. intros l t Hin. destruct (TY l t Hin) as (A & B). split; [intros ->; destruct B as [B|[B|B]]; discriminate|]. intros SP. exfalso. exact (not_periodic l A SP).
  - exact CO.
  - exact DF.
  - exact NS.
Qed.
Lemma ghost_flow bc vs w g1 g2 X : flow_bc bc vs -> zlen w = zlen (dm_center D) -> (forall c, iscell_of D c -> nthZ 0%R w c = X (gc c)) -> ghosts_updated (dom_bc D) bc vs w g1 g2 ->
  forall f c, only_cell 2 cells c (fset D f) -> isface D f -> gc (left_of D f) = c -> nthZ 0%R g2 f = flow_value nodes labels bc vs (fset D f) (X c).
Proof.
  intros (ND & TY & CO & DF & VL) HL HW (G1 & G2 & _) f c HO If EC. destruct (fset_facet 2 cells nodes labels epart r D PA f If) as (c0 & HF & HO' & HG). set (F := fset D f) in *.
  destruct (pa_kinds _ _ _ _ _ _ _ PA f c0 F HF HG) as [a b Ca Cb two sides row name | a Ca one row name label | a Ca Hh other sides row name].
  { exfalso. apply two. apply (gcell_inj 2 cells nodes labels epart r D PA a b Ca Cb). destruct HO as (_ & O). rewrite (O (gc a)), (O (gc b)) by (apply sides; auto). reflexivity. }
  2:{ exfalso. apply other. destruct HO as (_ & O). rewrite (O (ghalo D (nthZ 0 (dm_halofid D) f))) by (apply sides; auto). rewrite <- (O (gc a)) by (apply sides; auto). exact (proj2 (gcell_owned 2 cells nodes labels epart r D PA a Ca)). }
  assert (ELf : left_of D f = a) by (unfold left_of; rewrite row; reflexivity). rewrite ELf in EC. subst c.
  assert (Hf : 0 <= f < zlen (bd_name (dom_bc D))) by (cbn [dom_bc bd_name]; rewrite (proj1 (faces_count 2 cells nodes labels epart r D PA CS)); exact If).
  unfold flow_value, boundary_value. rewrite <- name. destruct (side_of_label 2 _ (or_introl eq_refl) label) as (l0 & Hl0 & El0).
  destruct (find _ bc) as [(l, t)|] eqn:EF.
  - apply find_some in EF as (HI & HE). cbn [fst] in HE. apply Z.eqb_eq in HE. rewrite (G2 l t f HI Hf) by (symmetry; exact HE). unfold prescribed. destruct (TY l t HI) as (_ & [-> | [-> | ->]]).
    + destruct (lookup vs l) as [[g|y|]|]; try reflexivity. cbn [dom_bc bd_fcenter]. destruct (pa_geometry _ _ _ _ _ _ _ PA f F HG) as (_ & _ & EC). rewrite EC. reflexivity.
    + rewrite <- (HW a Ca). f_equal. exact ELf.
    + rewrite <- (HW a Ca). f_equal. f_equal. exact ELf.
  - exfalso. specialize (CO l0 Hl0). apply in_map_iff in CO as ((l1, t1) & E1 & HI). cbn [fst] in E1. subst l1. pose proof (find_none _ _ EF _ HI) as X0. cbv beta in X0. cbn [fst] in X0. lia.
Qed.

(** a Variable without a dictionary *)
Lemma default_free : new_variable (dom_bc D) None None = new_variable (dom_bc D) (Some free) (Some []).
Proof.
  unfold new_variable. change (bd_dim (dom_bc D)) with (dm_dim D). rewrite (cs_dim _ _ CS). unfold free. rewrite foldM_map. f_equal. apply foldM_ext. intros s l Hl.
  assert (IL : In l (sides 2)) by exact Hl. destruct (domain_bc_ok (dom_bc D) (cs_bc _ _ CS) l) as (b & i & E & HB & _); [cbn [dom_bc bd_dim]; rewrite (cs_dim _ _ CS); exact IL|].
  unfold bc_default, bc_entry. rewrite E. cbn [bind]. destruct b; [exfalso; exact (not_periodic l IL (proj1 HB eq_refl))|]. cbn [andb negb]. reflexivity.
Qed.
End Rank21.
