(** * Proofs_run2: a variable in the loop. *)
From Coq Require Import Reals Lra Permutation Sorted.
From Verif Require Import Py PyLemmas Model_part Model_label Model_conn Model_geom Spec_geom Model_interp Spec_interp Model_bc Spec_bc Proofs_conn1 Proofs_label Proofs_bc Proofs_bc2
  Model_comm Model_fvm Model_domain Model_parallel Model_run Spec_part Spec_domain Spec_run.
Open Scope Z_scope.

Section Var.
Context (D : bcdom) (bc : list (loc * bctype)) (vs : list (loc * bcval)).
Hypothesis WF : wf_bcdom D.
Hypothesis ST : bc_settings D bc vs.
Definition vinv (w : list R) (v : variable) : Prop := exists s, inv D vs bc s /\ in_use s w v.

Lemma new_ok : exists v, new_variable D (Some bc) (Some vs) = Ok v /\ vinv (held D []) v.
Proof.
  destruct ST as (KN & CS & CO & DF & NS). unfold new_variable.
  pose proof (loop_ok D WF vs bc [] (init_state D) (init_inv D vs)) as H. rewrite (proj2 (good_consistent D WF bc vs KN) CS) in H. cbn [app] in H.
  destruct H as (s & E & I); [exact (proj1 KN) | exact (proj2 KN) | exact DF|]. rewrite E. cbn [bind]. eexists. split; [reflexivity|]. exists s. split; [exact I|]. exact (built_in_use D vs bc s I _ eq_refl).
Qed.
Lemma write_cell_ok w v w' : vinv w v -> zlen w' = bd_nbcells D -> exists v', write_array v (va_cell v) w' = Ok v' /\ vinv w' v'.
Proof.
  intros (s & I & U) HL. destruct ST as (KN & CS & CO & DF & NS). destruct (apply_in_use D WF vs bc s I NS KN CO w v (SetCell w') U HL) as (v' & E & U'). exists v'. split; [exact E|]. exists s. split; assumption.
Qed.
Lemma vinv_cell w v : vinv w v -> cell_of v = Ok w.
Proof. intros (s & I & U1 & U2 & U3 & U4). unfold cell_of. rewrite U1. rewrite (get_nthZ []) by (rewrite (shape_zlen D vs bc s I _ U3); unfold r_cell; lia). unfold r_cell. rewrite U4. reflexivity. Qed.
Lemma write_halo_ok w v h : vinv w v -> zlen h = bd_nbhalos D -> exists v', write_array v r_halo h = Ok v' /\ vinv w v' /\ nthZ [] (va_heap v') 2 = h.
Proof.
  intros (s & I & U1 & U2 & U3 & U4) HL. destruct (wb_size D WF) as (S1 & S2 & S3 & S4). destruct (fill_shape D vs bc s I (va_heap v) r_halo h U3) as (E & S'); [unfold r_halo; lia | rewrite HL; symmetry; exact (zlen_zeros_like 0%R _ S3)|].
  unfold write_array. rewrite E. cbn [bind]. eexists. split; [reflexivity|]. pose proof (shape_zlen D vs bc s I _ U3) as LZ. split.
  - exists s. split; [exact I|]. split; [exact U1|]. split; [exact U2|]. split; [exact S'|]. cbn [va_heap]. unfold r_halo. rewrite nthZ_upd_neq by lia. exact U4.
  - cbn [va_heap]. unfold r_halo. apply nthZ_upd_eq. lia.
Qed.
Lemma update_ok w v : vinv w v -> exists v', update_ghost_value D v = Ok v' /\ vinv w v' /\ nthZ [] (va_heap v') 2 = nthZ [] (va_heap v) 2 /\
  ghosts_updated D bc vs w (nthZ [] (va_heap v) 3) (nthZ [] (va_heap v') 3) /\ zlen (va_heap v') = 9.
Proof.
  intros (s & I & U1 & U2 & U3 & U4). destruct ST as (KN & CS & CO & DF & NS). unfold update_ghost_value. rewrite U2.
  change (locs (bd_dim D)) with (sides (bd_dim D)). destruct (update_loop D WF vs bc s I NS (sides (bd_dim D))) with (h := va_heap v) as (h' & E & F & P & O); [| exact (locs_NoDup D) | exact U3|].
  { intros l Hl. specialize (CO l Hl). apply in_map_iff in CO. destruct CO as ((k, t) & Ek & Hin). cbn [fst] in Ek. subst k. exists t. split; [exact Hin|]. destruct KN as (_ & K). destruct (K l t Hin) as (_ & K1 & K2). split; assumption. }
  rewrite E. cbn [bind]. eexists. split; [reflexivity|]. cbn [va_heap va_cell va_bcs]. pose proof (shape_zlen D vs bc s I _ U3) as LZ. pose proof (shape_frame D s _ _ U3 F) as SF.
  split; [|split; [|split]].
  - exists s. split; [exact I|]. split; [exact U1|]. split; [reflexivity|]. split; [exact SF|]. cbn [va_heap]. destruct F as (_ & Fr). destruct (Fr 0) as (_ & X); [lia|]. rewrite X by (cbn [In]; lia). exact U4.
  - destruct F as (_ & Fr). destruct (Fr 2) as (_ & X); [lia|]. apply X. cbn [In]; lia.
  - split; [|split].
    + rewrite (shape_len D vs bc s I h' 3 SF) by lia. change (zlen (zeros_like 0%R (zlen (bd_name D))) = zlen (bd_name D)). apply zlen_zeros_like, zlen_nonneg.
    + intros l t f Hin Hf En. destruct KN as (ND & K). rewrite <- U4. apply P; [exact ND | apply (K l t Hin) | exact Hin | apply bc_faces_in; split; assumption].
    + intros f Hf Hn. apply O; [lia|]. intros l Hl Hl'. apply bc_faces_in in Hl'. apply (Hn l Hl). apply Hl'.
  - exact (shape_zlen D vs bc s I _ SF).
Qed.
End Var.
