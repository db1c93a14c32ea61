(** * Examples_petsc: C89 on the unit square of two triangles. *)
From Coq Require Import Reals Lra Permutation Sorted.
From Verif Require Import Py PyLemmas Model_part Spec_part Model_label Model_conn Spec_conn Proofs_conn1 Model_geom Spec_geom Proofs_geom1 Model_interp Spec_interp Spec_lsq Model_fvm Spec_fvm Proofs_fvm1 Proofs_fvm2 Model_bc Spec_bc Spec_bc3
  Model_domain Spec_domain Model_parallel Spec_parallel Properties_geom Properties_parallel Model_comm Model_run Spec_run Proofs_run1 Proofs_run3 Proofs_run5 Proofs_run6 Properties_run Spec_run2 Model_run2 Proofs_run7 Proofs_run11 Proofs_run13 Proofs_run14 Proofs_run15 Spec_run3 Proofs_run16 Properties_run2
  Model_poisson Spec_poisson Spec_poisson2 Spec_poisson3 Proofs_poisson6 Proofs_poisson7 Proofs_poisson8 Properties_poisson Properties_poisson2.
From Verif Require Import Model_linsys Model_petsc Spec_petsc Proofs_petsc1 Proofs_petsc2 Properties_petsc.
From Verif Require Spec_linsys Proofs_poisson2 Proofs_part2 Proofs_periodic.
Open Scope Z_scope.

Theorem C89_square : forall bc vs c, iscell sq c -> attached 2 sq sq_v [4; 4; 3; 3] bc vs c.
Proof.
  intros bc vs c Hc. unfold iscell in Hc. change (zlen sq) with 2 in Hc. assert (CC : c = 0 \/ c = 1) by lia. exists [0; 2]. destruct CC as [-> | ->]; (split; [vm_compute; auto | left; vm_compute; discriminate]).
Qed.
(** two ranks: row 1 has entries in the columns 0 and 1, one is announced *)
Theorem C89_too_small_refuted : forall f32, exists st, setup f32 2 2 sq sq_v [4; 4; 3; 3] [0; 0; 1; 1] [0; 1] = Ok st /\
  forall l, history sq_bc sq_bcv 2 st l -> exists es nnz, assemble 2 st l = Ok es /\ petsc_nnz 2 st es = Ok nnz /\ nthZ 0 nnz 1 = 1 /\ exists x y, In (1, 1, x) (concat es) /\ In (1, 0, y) (concat es).
Proof.
  intros f32. pose proof (proj2 C70_square) as RG. regular_setup f32 RG st E RP CS HX. exists st. split; [exact E|]. intros l H.
  destruct (history_holds 2 2 sq sq_v [4; 4; 3; 3] [0; 0; 1; 1] [0; 1] st VM PL VS RP SC CS HX sq_bc sq_bcv BV CW SP l H) as (X0 & HO0).
  destruct (assembled 2 2 sq sq_v [4; 4; 3; 3] [0; 0; 1; 1] [0; 1] st VM PL VS RP CS sq_bc sq_bcv BV X0 l HO0) as (es & EA & LE & HE).
  destruct (nnz_all 2 2 sq sq_v [4; 4; 3; 3] [0; 0; 1; 1] [0; 1] st VS RP CS sq_bc sq_bcv es LE HE (C89_square sq_bc sq_bcv)) as (nnz & EN & LN & HN). exists es, nnz. split; [exact EA|]. split; [exact EN|].
  assert (H1 : 0 <= 1 < 2) by lia. pose proof (rp_part _ _ _ _ _ _ _ RP 1 H1) as PA. set (D := domain_of (se_domains st) 1) in *. pose proof (pa_cells _ _ _ _ _ _ _ PA) as EO. change (owned sq [0; 1] 1) with [1] in EO.
  assert (I0 : iscell_of D 0) by (unfold iscell_of; rewrite EO; change (zlen [1]) with 1; lia). assert (G0 : gcell D 0 = 1) by (unfold gcell; rewrite EO; reflexivity).
  destruct (HN 1 0 H1 I0) as (_ & V). fold D in V. rewrite G0 in V. change (0 =? 0) with true in V. cbv iota in V.
  assert (F1 : has_facet 2 sq 1 [0; 2]) by (apply sq_facet; auto). assert (F0 : has_facet 2 sq 0 [0; 2]) by (apply sq_facet; auto). destruct (pa_facets _ _ _ _ _ _ _ PA 1 [0; 2] F1 eq_refl) as (f & GF & UF).
  assert (CUT : forall f' F, gface D f' F -> has_facet 2 sq 1 F -> nthZ 0 (dm_name D) f' = 10 -> nthZ [] (dm_cellid D) f' = [0; -10] /\ ishalo_of D (nthZ 0 (dm_halofid D) f') /\ ghalo D (nthZ 0 (dm_halofid D) f') = 0 /\ has_facet 2 sq 0 F).
  { intros f' F GF' HF' NF'. destruct (pa_kinds _ _ _ _ _ _ _ PA f' 1 F HF' GF') as [a b Ia Ib two sd row name | a Ia one row name label | a Ia halo other sd row name]; [lia|lia|]. assert (HC : has_facet 2 sq (ghalo D (nthZ 0 (dm_halofid D) f')) F) by (apply sd; auto). pose proof (proj1 HC) as Q. unfold iscell in Q. change (zlen sq) with 2 in Q.
    assert (Z0 : ghalo D (nthZ 0 (dm_halofid D) f') = 0). { destruct (Z.eq_dec (ghalo D (nthZ 0 (dm_halofid D) f')) 1) as [Q1|Q1]; [rewrite Q1 in other; exfalso; apply other; reflexivity | lia]. } unfold iscell_of in Ia. rewrite EO in Ia. change (zlen [1]) with 1 in Ia. assert (a = 0) by lia. subst a. rewrite Z0 in HC. auto. }
  assert (NF : nthZ 0 (dm_name D) f = 10). { destruct (pa_kinds _ _ _ _ _ _ _ PA f 1 _ F1 GF) as [a b Ia Ib two sd row name | a Ia one row name label | a Ia halo other sd row name]; [| |exact name].
    - exfalso. unfold iscell_of in Ia, Ib. rewrite EO in Ia, Ib. change (zlen [1]) with 1 in Ia, Ib. lia.
    - exfalso. pose proof (proj2 one 0 F0) as Q. pose proof (proj2 one 1 F1) as Q'. lia. }
  destruct (Proofs_poisson2.names_len 2 sq sq_v [4; 4; 3; 3] [0; 1] 1 D PA (CS 1 H1)) as (N1 & N2). pose proof (proj1 GF) as If. unfold isface in If.
  assert (ALL : where_eq (dm_name D) 10 = [f]).
  { assert (ND : NoDup (where_eq (dm_name D) 10)) by (unfold where_eq; apply NoDup_filter, NoDup_range). assert (ON : forall k, In k (where_eq (dm_name D) 10) <-> k = f).
    { intros k. unfold where_eq. rewrite filter_In, in_range, Z.eqb_eq. split; [|intros ->; split; [lia | exact NF]]. intros (Hk & Nk). assert (Ik : isface D k) by (unfold isface; lia). destruct (pa_faces _ _ _ _ _ _ _ PA k Ik) as (c & F & HF & OC & GK).
      assert (c = 1). { pose proof (proj1 HF) as Q. unfold iscell in Q. change (zlen sq) with 2 in Q. assert (CC : c = 0 \/ c = 1) by lia. destruct CC as [-> | ->]; [discriminate OC | reflexivity]. } subst c. destruct (CUT k F GK HF Nk) as (_ & _ & _ & HF0). apply UF.
      apply (facets_iff 2 sq sq_v (vm_mesh _ _ _ _ VM) 1 F (proj1 HF)) in HF. apply (facets_iff 2 sq sq_v (vm_mesh _ _ _ _ VM) 0 F (proj1 HF0)) in HF0. vm_compute in HF, HF0.
      destruct HF as [<-|[<-|[<-|[]]]]; destruct HF0 as [Q|[Q|[Q|[]]]]; try discriminate Q; exact GK. }
    revert ND ON; generalize (where_eq (dm_name D) 10); intros [|a t] ND ON; [exact (False_ind _ (proj2 (ON f) eq_refl))|]. assert (a = f) by (apply ON; left; reflexivity). subst a. destruct t as [|b t]; [reflexivity|]. exfalso. assert (b = f) by (apply ON; right; left; reflexivity). subst b. inversion ND as [|? ? NI _]. apply NI. left. reflexivity. }
  assert (PD : padding 2 st 1 = 1) by (unfold padding; cbn [Z.eqb Pos.eqb]; fold D; rewrite ALL; reflexivity). rewrite PD in V. split; [apply V; [lia | vm_compute; discriminate]|].
  destruct (es_at 2 2 sq sq_v [4; 4; 3; 3] [0; 1] st sq_bc sq_bcv es LE HE 1 H1) as (_ & (_ & _ & RW)). fold D in RW. destruct (CUT f _ GF F1 NF) as (row & halo & Z0 & _). destruct (RW f 0 (proj1 GF) row I0 NF halo) as ((x & Hx) & (y & Hy)). rewrite G0 in Hx, Hy. rewrite Z0 in Hy.
  assert (IC : forall e, In e (nthZ [] es 1) -> In e (concat es)). { intros e He. apply in_concat. exists (nthZ [] es 1). split; [apply nthZ_In; lia | exact He]. } exists x, y. split; apply IC; assumption.
Qed.
Print Assumptions C89_too_small_refuted.
