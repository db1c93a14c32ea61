(** * Proofs_run4: boundary conditions, velocities and time step of a rank. *)
From Coq Require Import Reals Lra Permutation Sorted.
From Verif Require Import Py PyLemmas Model_part Spec_part Model_label Model_conn Spec_conn Proofs_conn1 Proofs_conn2 Model_geom Spec_geom Proofs_geom1 Proofs_geom2 Proofs_geom3
  Model_interp Spec_interp Properties_interp Model_fvm Spec_fvm Proofs_fvm1 Proofs_fvm2 Model_bc Spec_bc Proofs_bc2 Model_domain Spec_domain Proofs_domain1 Proofs_domain4 Model_parallel Spec_parallel Proofs_parallel1
  Properties_parallel Properties_fvm Model_comm Model_run Spec_run Proofs_run1 Proofs_run2 Proofs_run3.
Open Scope Z_scope.

Lemma zlist_eq {A} (d : A) l l' : zlen l = zlen l' -> (forall i, 0 <= i < zlen l -> nthZ d l i = nthZ d l' i) -> l = l'.
Proof. apply nthZ_ext. Qed.
Lemma side_of_label dim k : (dim = 2 \/ dim = 3) -> 1 <= k <= 2 * dim -> exists l, In l (sides dim) /\ side_label l = k.
Proof.
  intros Hd Hk. assert (C : k = 1 \/ k = 2 \/ k = 3 \/ k = 4 \/ dim = 3 /\ (k = 5 \/ k = 6)) by lia. unfold sides.
  destruct C as [-> | [-> | [-> | [-> | (Hd3 & [-> | ->])]]]]; try rewrite Hd3; [exists LIn | exists LOut | exists LUpper | exists LBottom | exists LFront | exists LBack]; (split; [|reflexivity]); try (destruct (dim =? 3)); cbn; tauto.
Qed.

Section Rank.
Context (dim : Z) (cells : list (list Z)) (nodes : list pt) (labels epart : list Z) (r : Z) (D : domain).
Hypothesis VM : valid_mesh dim cells nodes labels.
Hypothesis PA : part_of dim cells nodes labels epart r D.
Hypothesis CS : consistent dim D.
Notation WF := (vm_mesh _ _ _ _ VM).
Notation gc := (gcell D).
Context (bc : list (loc * bctype)) (vs : list (loc * bcval)).
Hypothesis BV : bc_valid dim bc vs.

Lemma faces_count : zlen (dm_name D) = zlen (dm_facenodes D) /\ zlen (dm_normal D) = zlen (dm_facenodes D) /\ zlen (dm_cellid D) = zlen (dm_facenodes D).
Proof. destruct (pa_sizes _ _ _ _ _ _ _ PA) as (_ & _ & _ & _ & SC & _). destruct (cs_fv _ _ CS) as (W & _). destruct (wfv_len _ _ W) as (L1 & L2 & _). cbn [dom_fv fv_name fv_cellid fv_normal] in *. lia. Qed.
Lemma name_cases f : isface D f -> nthZ 0 (dm_name D) f = 0 \/ nthZ 0 (dm_name D) f = 10 \/ 1 <= nthZ 0 (dm_name D) f <= 2 * dim.
Proof.
  intros If. destruct (fset_facet dim cells nodes labels epart r D PA f If) as (c & HF & _ & HG). destruct (pa_kinds _ _ _ _ _ _ _ PA f c _ HF HG); auto.
Qed.
Lemma settings_ok : bc_settings (dom_bc D) bc vs.
Proof.
  destruct BV as (ND & TY & CO & DF & VL). pose proof (wm_dim _ _ _ WF) as Hdim. unfold bc_settings, bc_known, bc_consistent, bc_complete, nonslip_readable. cbn [dom_bc bd_dim]. rewrite (cs_dim _ _ CS).
  split; [|split; [|split; [|split]]].
  - split; [exact ND|]. intros l t Hin. destruct (TY l t Hin) as (A & [-> | ->]); (split; [exact A|]); split; discriminate.
  - split; [|exact VL]. intros l t Hin. destruct (TY l t Hin) as (A & B). split; [intros ->; destruct B; discriminate|]. intros SP. exfalso. unfold side_periodic in SP. cbn [dom_bc bd_name] in SP.
    destruct (In_nthZ 0 _ _ SP) as (f & Hf & E). assert (If : isface D f) by (unfold isface; rewrite <- (proj1 faces_count); exact Hf). pose proof (name_cases f If) as N. rewrite E in N.
    unfold sides in A. destruct (dim =? 3); cbn [In] in A; repeat (destruct A as [<-|A]; [cbn [periodic_label] in N; lia|]); destruct A.
  - exact CO.
  - exact DF.
  - intros l ? ? Hin. destruct (TY l _ Hin) as (_ & [X|X]); discriminate X.
Qed.
Lemma ghost_ok w g1 g2 X : zlen w = zlen (dm_center D) -> (forall c, iscell_of D c -> nthZ 0%R w c = X (gc c)) -> ghosts_updated (dom_bc D) bc vs w g1 g2 ->
  forall f c, only_cell dim cells c (fset D f) -> isface D f -> gc (left_of D f) = c -> nthZ 0%R g2 f = boundary_value dim nodes labels bc vs (fset D f) (X c).
Proof.
  intros HL HW (G1 & G2 & _) f c HO If EC. pose proof (wm_dim _ _ _ WF) as Hdim. destruct (fset_facet dim cells nodes labels epart r D PA f If) as (c0 & HF & HO' & HG). set (F := fset D f) in *.
  destruct (pa_kinds _ _ _ _ _ _ _ PA f c0 F HF HG) as [a b Ca Cb two sides row name | a Ca one row name label | a Ca Hh other sides row name].
  { exfalso. apply two. apply (gcell_inj dim cells nodes labels epart r D PA a b Ca Cb). destruct HO as (_ & O). rewrite (O (gc a)), (O (gc b)) by (apply sides; auto). reflexivity. }
  2:{ exfalso. apply other. destruct HO as (_ & O). rewrite (O (ghalo D (nthZ 0 (dm_halofid D) f))) by (apply sides; auto). rewrite <- (O (gc a)) by (apply sides; auto). exact (proj2 (gcell_owned dim cells nodes labels epart r D PA a Ca)). }
  assert (ELf : left_of D f = a) by (unfold left_of; rewrite row; reflexivity). rewrite ELf in EC. subst c.
  assert (Hf : 0 <= f < zlen (bd_name (dom_bc D))) by (cbn [dom_bc bd_name]; rewrite (proj1 faces_count); exact If).
  destruct BV as (ND & TY & CO & DF & VL). unfold boundary_value. rewrite <- name. destruct (side_of_label dim _ Hdim label) as (l0 & Hl0 & El0).
  destruct (find _ bc) as [(l, t)|] eqn:EF.
  - apply find_some in EF as (HI & HE). cbn [fst] in HE. apply Z.eqb_eq in HE. rewrite (G2 l t f HI Hf) by (symmetry; exact HE). unfold prescribed. destruct (TY l t HI) as (_ & [-> | ->]).
    + destruct (lookup vs l) as [[g|y|]|]; try reflexivity. cbn [dom_bc bd_fcenter]. destruct (pa_geometry _ _ _ _ _ _ _ PA f F HG) as (_ & _ & EC). rewrite EC. reflexivity.
    + rewrite <- (HW a Ca). f_equal. exact ELf.
  - exfalso. specialize (CO l0 Hl0). apply in_map_iff in CO as ((l1, t1) & E1 & HI). cbn [fst] in E1. subst l1. pose proof (find_none _ _ EF _ HI) as X0. cbv beta in X0. cbn [fst] in X0. lia.
Qed.

(** one normal, up to its sign *)
Lemma normal_sign c f : iscell_of D c -> In f (nthZ [] (dm_faceid D) c) -> let v := outward cells nodes (gc c) (fset D f) in nthZ vzero (dm_normal D) f = v \/ nthZ vzero (dm_normal D) f = vscal (-1) v.
Proof.
  intros Hc Hf v. destruct (faces_lists dim cells nodes labels epart r D PA CS c f Hc Hf) as (_ & If & _). destruct (fset_facet dim cells nodes labels epart r D PA f If) as (a0 & HF & HO & HGf).
  assert (FC : has_facet dim cells (gc c) (fset D f)). { destruct HF as (_ & S1 & S2 & _). split; [exact (proj1 (gcell_owned dim cells nodes labels epart r D PA c Hc))|]. split; [exact S1|]. split; [exact S2|]. apply (proj1 (pa_cellfaces _ _ _ _ _ _ _ PA c f _ Hc HGf)). exact Hf. }
  destruct (pa_geometry _ _ _ _ _ _ _ PA f _ HGf) as ((A & _) & _). destruct (outward_ok dim cells nodes WF (vm_nonflat _ _ _ _ VM) _ _ FC) as (B & _). fold v in B.
  set (n := nthZ vzero (dm_normal D) f) in *. set (a := area_vector nodes (fset D f)) in *. assert (E : vscal (-1) (vscal (-1) a) = a) by (destruct a as [x1 x2 x3]; unfold vscal; cbn [px py pz]; f_equal; ring).
  destruct A as [A|A], B as [B|B]; rewrite A, B; auto.
Qed.
Lemma rows_ok c : iscell_of D c -> zlen (nthZ [] (dm_faceid D) c) = dim + 1 /\ forall f, In f (nthZ [] (dm_faceid D) c) -> isface D f.
Proof.
  intros Hc. destruct (pa_sizes _ _ _ _ _ _ _ PA) as (_ & S2 & _ & SF & _). pose proof (cs_timestep _ _ CS (zeros_like p0 (zlen (dm_center D))) (zlen_zeros_like _ _ (zlen_nonneg _))) as W.
  destruct (wt_row _ _ _ _ _ _ W c ltac:(rewrite SF; exact Hc)) as (A & B). split; [exact A|]. intros f Hf. destruct (B f Hf) as (B1 & _). unfold isface. destruct faces_count as (_ & X & _). rewrite <- X. exact B1.
Qed.
Lemma facetocell_ok k old : zlen old = zlen (dm_center D) -> exists u, facetocell (zeros_like k (zlen (dm_cellid D))) old (dm_faceid D) (dm_dim D) = Ok u /\ zlen u = zlen (dm_center D) /\ forall c, iscell_of D c -> nthZ 0%R u c = k.
Proof.
  intros HL. destruct (pa_sizes _ _ _ _ _ _ _ PA) as (_ & S2 & _ & SF & SC & _). rewrite (cs_dim _ _ CS). pose proof (zlen_nonneg (dm_cellid D)) as NN.
  destruct (C28_facetocell dim (zeros_like k (zlen (dm_cellid D))) old (dm_faceid D) (wm_dim _ _ _ WF)) as (u & E & LU & V); [lia | |].
  { intros c Hc. destruct (rows_ok c) as (A & B); [unfold iscell_of; lia|]. split; [exact A|]. intros f Hf. specialize (B f Hf). unfold isface in B. rewrite zlen_zeros_like by exact NN. lia. }
  exists u. split; [exact E|]. split; [lia|]. intros c Hc. unfold iscell_of in Hc. destruct (V c ltac:(lia)) as (_ & _ & V3). apply V3. intros v Hv. apply in_map_iff in Hv as (f & <- & Hf). destruct (rows_ok c Hc) as (_ & B). specialize (B f Hf). unfold isface in B.
  unfold zeros_like. rewrite (nthZ_map _ 0) by (rewrite zlen_range; lia). reflexivity.
Qed.
Definition vel_ok (s : list R * list R * list R) : Prop := zlen (fst (fst s)) = zlen (dm_center D) /\ zlen (snd (fst s)) = zlen (dm_center D) /\ zlen (snd s) = zlen (dm_center D).
Lemma velocity_ok U old : vel_ok old -> exists s, cell_velocity U D old = Ok s /\ vel_ok s /\ components (fst (fst s)) (snd (fst s)) (snd s) = zeros_like U (zlen (dm_center D)).
Proof.
  intros (A & B & C). unfold cell_velocity. cbv zeta. destruct (facetocell_ok (px U) _ A) as (u & Eu & Lu & Vu). destruct (facetocell_ok (py U) _ B) as (v & Ev & Lv & Vv). destruct (facetocell_ok (pz U) _ C) as (w & Ew & Lw & Vw).
  rewrite Eu. cbn [bind]. rewrite Ev. cbn [bind]. rewrite Ew. cbn [bind]. eexists. split; [reflexivity|]. cbn [fst snd]. split; [unfold vel_ok; cbn [fst snd]; auto|].
  destruct (pa_sizes _ _ _ _ _ _ _ PA) as (_ & S2 & _). unfold components, zeros_like. rewrite Lu. apply map_ext_in. intros c Hc. apply in_range in Hc. rewrite Vu, Vv, Vw by (unfold iscell_of; lia). destruct U as [a b c']; reflexivity.
Qed.

(** the time step of the rank *)
Lemma speed_ok U c : iscell_of D c -> wave_speed (zeros_like U (zlen (dm_center D))) (dm_normal D) (dm_volume D) (dm_faceid D) (P3 0 0 0) c = speed cells nodes U (gc c).
Proof.
  intros Hc. unfold wave_speed, speed. destruct (pa_sizes _ _ _ _ _ _ _ PA) as (_ & S2 & _). pose proof Hc as Hc'. unfold iscell_of in Hc'.
  rewrite <- (rsum_perm _ _ (Permutation_map _ (fset_row dim cells nodes labels epart r D VM PA CS c Hc))). rewrite map_map. apply rsum_map_ext. intros f Hf. cbv zeta. cbn [px py pz].
  assert (EU : nthZ vzero (zeros_like U (zlen (dm_center D))) c = U) by (unfold zeros_like; rewrite (nthZ_map _ 0) by (rewrite zlen_range; lia); reflexivity). rewrite EU.
  destruct (normal_sign c f Hc Hf) as [-> | ->].
  - unfold Rdiv. rewrite !Rplus_0_l, !Rmult_0_l, Rplus_0_r. reflexivity.
  - unfold Rdiv. rewrite !Rplus_0_l, !Rmult_0_l, Rplus_0_r. replace (vdot U (vscal (-1) (outward cells nodes (gc c) (fset D f)))) with (- vdot U (outward cells nodes (gc c) (fset D f)))%R by (unfold vdot, vscal; cbn [px py pz]; ring). apply Rabs_Ropp.
Qed.
Lemma timestep_ok U cfl : (0 < cfl)%R ->
  exists dt, time_step (dm_dim D) (zeros_like U (zlen (dm_center D))) (dm_normal D) cfl (dm_mesure D) (dm_volume D) (dm_faceid D) (P3 0 0 0) = Ok (Some dt) /\ (0 < dt <= 1000000)%R /\
  (forall c, iscell_of D c -> dt * speed cells nodes U (gc c) <= cfl * measure_of cells nodes (gc c))%R /\
  (dt = 1000000%R \/ exists c, iscell_of D c /\ (0 < speed cells nodes U (gc c))%R /\ (dt * speed cells nodes U (gc c) = cfl * measure_of cells nodes (gc c))%R).
Proof.
  intros HC. destruct (pa_sizes _ _ _ _ _ _ _ PA) as (_ & S2 & S3 & SF & _). rewrite (cs_dim _ _ CS).
  destruct (C33_time_step dim (zeros_like U (zlen (dm_center D))) (dm_normal D) cfl (dm_mesure D) (dm_volume D) (dm_faceid D) (P3 0 0 0)) as (dt & E & B & F & M); [apply (cs_timestep _ _ CS); apply zlen_zeros_like, zlen_nonneg | exact HC | cbn [px py pz]; lra|].
  assert (VO : forall c, iscell_of D c -> nthZ 0%R (dm_volume D) c = measure_of cells nodes (gc c)) by (intros c Hc; apply (pa_cell _ _ _ _ _ _ _ PA c Hc)).
  exists dt. split; [exact E|]. split; [exact B|]. split.
  - intros c Hc. destruct (F c ltac:(rewrite SF; exact Hc)) as ((_ & X) & _). rewrite (speed_ok U c Hc), (VO c Hc) in X. exact X.
  - destruct M as [M|(c & Hc & N & M)]; [left; exact M|right]. assert (Hc' : iscell_of D c) by (unfold iscell_of; rewrite <- SF; exact Hc). destruct (F c Hc) as ((W0 & _) & _). rewrite (speed_ok U c Hc') in *. rewrite (VO c Hc') in M.
    exists c. split; [exact Hc'|]. split; [lra|]. rewrite M. field. lra.
Qed.

(** the update of the rank *)
Lemma advance_ok U dt X w v : vinv (dom_bc D) bc vs w v -> zlen w = zlen (dm_center D) -> (forall c, iscell_of D c -> nthZ 0%R w c = X (gc c)) ->
  zlen (nthZ [] (va_heap v) 2) = zlen (dm_centerh D) -> (forall h, ishalo_of D h -> nthZ 0%R (nthZ [] (va_heap v) 2) h = X (ghalo D h)) ->
  zlen (va_heap v) = 9 -> zlen (nthZ [] (va_heap v) 3) = zlen (dm_name D) ->
  (forall f c, only_cell dim cells c (fset D f) -> isface D f -> gc (left_of D f) = c -> nthZ 0%R (nthZ [] (va_heap v) 3) f = boundary_value dim nodes labels bc vs (fset D f) (X c)) ->
  exists v' w', advance_rank U dt D v = Ok v' /\ vinv (dom_bc D) bc vs w' v' /\ zlen w' = zlen (dm_center D) /\
    forall c, iscell_of D c -> nthZ 0%R w' c = upwind_step dim cells nodes labels bc vs U dt X (gc c).
Proof.
  intros VI HL HW LH HH H9 LG HG. pose proof faces_count as (N1 & N2 & N3). destruct (pa_sizes _ _ _ _ _ _ _ PA) as (_ & S2 & S3 & SF & SC & SH & _). destruct (cs_fv _ _ CS) as (WFV & WL).
  pose proof (zlen_nonneg (dm_center D)) as P1. pose proof (zlen_nonneg (dm_centerh D)) as P2. pose proof (zlen_nonneg (dm_cellid D)) as P3'.
  unfold advance_rank. rewrite (vinv_cell _ _ _ _ _ VI). cbn [bind]. unfold ghost_of. rewrite (get_nthZ []) by (rewrite H9; unfold r_ghost; lia). cbn [bind]. rewrite (get_nthZ []) by (rewrite H9; unfold r_halo; lia). cbn [bind]. cbv zeta.
  change r_ghost with 3. change r_halo with 2. rewrite (cs_dim _ _ CS). set (A := {| ad_c := w |}).
  assert (WA : wf_advected (dom_fv D) A (zeros_like U (zlen (dm_cellid D)))). { unfold wf_advected, A. cbn [ad_c ad_grad ad_psi ad_halo ad_gradh ad_psih ad_ghost dom_fv fv_centerc fv_centerh fv_cellid]. rewrite !zlen_zeros_like by assumption. rewrite LG. repeat (split; [lia|]). lia. }
  destruct (C29_convection_conservative dim 1 (dom_fv D) (dom_lists D) A _ WFV WL WA) as (rez & ER & LR & VR & _). cbn [dom_fv fv_centerc] in ER, LR, VR. unfold dom_fv in ER |- *. rewrite ER. cbn [bind].
  destruct (Proofs_fvm2.update_ok w rez (zeros_like 0%R (zlen (dm_center D))) (zeros_like 0%R (zlen (dm_center D))) (dm_volume D) dt) as (new & EN & LN & VN); [congruence | rewrite zlen_zeros_like by assumption; congruence | rewrite zlen_zeros_like by assumption; congruence | lia | |].
  { intros c Hc. pose proof (proj2 (proj2 (proj2 (pa_cell _ _ _ _ _ _ _ PA c ltac:(unfold iscell_of; lia))))). lra. }
  rewrite EN. cbn [bind].
  assert (ET : exists w', total new = Ok w' /\ zlen w' = zlen (dm_center D) /\ forall c, 0 <= c < zlen (dm_center D) -> nthZ None new c = Some (nthZ 0%R w' c)).
  { exists (map (fun o => match o with Some x => x | None => 0%R end) new). split; [|split].
    - unfold total. apply mapM_ok. intros o Ho. destruct (In_nthZ None _ _ Ho) as (c & Hc & <-). rewrite VN by lia. reflexivity.
    - rewrite zlen_map. lia.
    - intros c Hc. rewrite (nthZ_map _ None) by lia. rewrite VN by lia. reflexivity. }
  destruct ET as (w' & ET & LT & VT). rewrite ET. cbn [bind].
  destruct (write_cell_ok (dom_bc D) bc vs (cs_bc _ _ CS) settings_ok w v w' VI) as (v' & EV & VI'); [exact LT|]. exists v', w'. split; [exact EV|]. split; [exact VI'|]. split; [exact LT|].
  intros c Hc. assert (Hc' : 0 <= c < zlen (dm_center D)) by (unfold iscell_of in Hc; lia). pose proof (VT c Hc') as V. rewrite (VN c) in V by lia. injection V as <-. fold (dom_fv D) in VR. rewrite VR by exact Hc'.
  assert (EA : forall f, isface D f -> nthZ vzero (zeros_like U (zlen (dm_cellid D))) f = U). { intros f Hf. unfold isface in Hf. unfold zeros_like. rewrite (nthZ_map _ 0) by (rewrite zlen_range; lia). reflexivity. }
  rewrite (sum_faces dim cells nodes labels epart r D VM PA CS _ (leaving dim cells nodes labels bc vs U X (gc c)) c Hc).
  - unfold upwind_step. rewrite (HW c Hc). rewrite nthZ_zeros_like by exact Hc'. replace (nthZ 0%R (dm_volume D) c) with (measure_of cells nodes (gc c)) by (symmetry; apply (pa_cell _ _ _ _ _ _ _ PA c Hc)).
    unfold Rdiv. ring.
  - intros f Hf. apply (flux_face dim cells nodes labels epart r D VM PA CS bc vs U X A _ EA HW HH HG c f Hc Hf).
Qed.
End Rank.
