(** * Proofs_per6: boundary conditions, fluxes and the update on a periodic domain. *)
From Coq Require Import Reals Lra Permutation Sorted.
From Verif Require Import Py PyLemmas Model_part Spec_part Model_label Proofs_label Model_conn Spec_conn Proofs_conn1 Proofs_conn2 Model_geom Spec_geom Proofs_geom1 Proofs_geom2 Proofs_geom3
  Model_periodic Spec_periodic Model_interp Spec_interp Properties_interp Model_fvm Spec_fvm Proofs_fvm1 Proofs_fvm2 Model_bc Spec_bc Proofs_bc Proofs_bc2 Model_domain Spec_domain Proofs_domain1 Proofs_domain4 Model_parallel Spec_parallel Proofs_parallel1
  Properties_parallel Properties_fvm Model_comm Model_run Spec_run Proofs_run1 Proofs_run2 Proofs_run3 Proofs_run4 Proofs_run5 Proofs_run7.
From Verif Require Import Spec_per Proofs_per2 Proofs_per3 Proofs_per5 Proofs_per4.
Open Scope Z_scope.

Lemma side_periodic_label l : Spec_bc.periodic_label l = 11 * side_label l. Proof. destruct l; reflexivity. Qed.

Section Run.
Context (f32 : R -> R) (dim : Z) (cells : list (list Z)) (nodes : list pt) (labels npart0 epart : list Z) (D D1 : domain).
Hypothesis PM : periodic_mesh dim cells nodes labels f32.
Hypothesis VS : valid_split dim 1 cells nodes npart0 epart.
Hypothesis TW : twins f32 dim cells nodes labels D D1.
Hypothesis PA : part_of dim cells nodes (ones nodes) epart 0 D1.
Hypothesis CS : consistent dim D1.
Hypothesis FD : wf_facedata dim (dom_face D).
Notation VM := (VM1 f32 dim cells nodes labels PM).
Notation WF := (pm_mesh _ _ _ _ _ PM).
Notation Hd := (wm_dim _ _ _ (pm_mesh _ _ _ _ _ PM)).
Notation nf := (zlen (dm_facenodes D1)).
Notation lab f := (flabel dim labels (fset D1 f)).
Notation tf := (tw_face _ _ _ _ _ _ _ TW).
Notation len_cells := (len_cells f32 dim cells nodes labels npart0 epart D D1 VS TW PA).
Notation is_cell := (is_cell f32 dim cells nodes labels npart0 epart D D1 VS TW PA).
Notation gcell1 := (gcell1 dim cells nodes npart0 epart D1 VS PA).

(** ** boundary conditions *)
Lemma named v : v <> 0 -> In v (dm_name D) <-> exists c F, only_cell dim cells c F /\ flabel dim labels F = v.
Proof.
  intros NZ. split.
  - intros HI. apply In_nthZ with (d := 0) in HI as (f & Hf & E). rewrite (len_name f32 dim cells nodes labels D D1 TW) in Hf. destruct (tf f Hf) as [a b r r1 n n1 cb | a r r1 n n1 one pl | a f' r r1 n n1 one pe]; rewrite n in E; [congruence | exists a, (fset D1 f); auto | exists a, (fset D1 f); auto].
  - intros (c & F & OF & <-). destruct (pa_facets _ _ _ _ _ _ _ PA c F (proj1 OF) (owns dim cells nodes npart0 epart VS c (proj1 (proj1 OF)))) as (f & HG & _). pose proof (fset_eq dim cells D1 f F c (proj1 OF) HG) as EF.
    assert (Hf : isface D1 f) by exact (proj1 HG). assert (HN : nthZ 0 (dm_name D) f = flabel dim labels F).
    { destruct (tf f Hf) as [a b r r1 n n1 cb | a r r1 n n1 one pl | a f' r r1 n n1 one pe]; [|congruence|congruence]. exfalso. destruct (pa_kinds _ _ _ _ _ _ _ PA f c F (proj1 OF) HG) as [a' b' Ca Cb two sides row name | a' Ca one row name label | a' Ca Hh other sides row name]; [|lia|lia].
      apply two. apply (gcell_inj dim cells nodes (ones nodes) epart 0 D1 PA a' b' Ca Cb). destruct OF as (_ & U). rewrite (U (gcell D1 a')), (U (gcell D1 b')) by (apply sides; auto). reflexivity. }
    rewrite <- HN. apply nthZ_In. rewrite (len_name f32 dim cells nodes labels D D1 TW). exact Hf.
Qed.
Lemma periodic_named v : is_periodic dim v = true -> v <> 0. Proof. intros H ->. unfold is_periodic, is_x, is_y, is_z in H. destruct (dim =? 3); discriminate. Qed.
Lemma name_ten : ~ In 10 labels.
Proof. intros H. destruct (proj2 (pm_labels _ _ _ _ _ PM) 10 H) as [B|B]; [pose proof Hd; lia|]. unfold is_periodic, is_x, is_y, is_z in B. destruct (dim =? 3); discriminate. Qed.
Lemma direction_of v : In v (dm_name D) -> is_periodic dim v = true -> exists a L, In a (axes dim) /\ periodic_direction dim cells nodes labels f32 a L /\ (v = low_label a \/ v = high_label a).
Proof.
  intros HI HP. apply (named v (periodic_named v HP)) in HI as (c & F & OF & E). destruct (axis_labels dim v Hd HP) as (a & Ha & EL). destruct (pm_directions _ _ _ _ _ PM a Ha) as [(PP & _)|(L & PD)]; [exfalso; destruct (PP c F OF); destruct EL; congruence|]. exists a, L. auto.
Qed.
Lemma side_is l : In l (sides dim) -> is_periodic dim (Spec_bc.periodic_label l) = true /\ side_label l <> 0 /\ 1 <= side_label l <= 2 * dim.
Proof. unfold sides, is_periodic. pose proof Hd as [E|E]; rewrite E; cbn [Z.eqb Pos.eqb In]; intros H; repeat (destruct H as [<-|H]; [cbn; repeat split; lia|]); destruct H. Qed.
Lemma pair_named a L : In a (axes dim) -> periodic_direction dim cells nodes labels f32 a L -> In (low_label a) (dm_name D) /\ In (high_label a) (dm_name D).
Proof.
  intros Ha PD. destruct (label_periodic dim a Ha) as (Q1 & Q2). destruct (pd_some _ _ _ _ _ _ _ PD) as (c & F & OF & E). destruct (pd_low _ _ _ _ _ _ _ PD c F OF E) as (c' & G & OG & EG & _). split; [apply (named _ (periodic_named _ Q1)); exists c, F; auto | apply (named _ (periodic_named _ Q2)); exists c', G; auto].
Qed.
Lemma bcdom_ok : wf_bcdom (dom_bc D).
Proof.
  destruct (cs_bc _ _ CS) as [W1 W2 W3 W4 W5 W6 _ _ _]. cbn [dom_bc bd_dim bd_nbcells bd_nbnodes bd_nbhalos bd_sizehg bd_name bd_fcenter bd_cellid bd_oldname bd_vertex bd_hg bd_hginfo bd_halonodes] in *.
  destruct (faces_count dim cells nodes (ones nodes) epart 0 D1 PA CS) as (N1 & N2 & N3). destruct (tw_faces _ _ _ _ _ _ _ TW) as (F1 & F2 & F3 & F4 & F5 & F6 & F7). destruct (tw_nodes _ _ _ _ _ _ _ TW) as (V1 & V2 & V3 & V4 & V5). destruct (tw_halos _ _ _ _ _ _ _ TW) as (H1 & H2 & _ & _ & H3 & H4 & H5).
  pose proof (proj1 (pm_labels _ _ _ _ _ PM)) as HN. rewrite V2 in *. constructor; cbn [dom_bc bd_dim bd_nbcells bd_nbnodes bd_nbhalos bd_sizehg bd_name bd_fcenter bd_cellid bd_oldname bd_vertex bd_hg bd_hginfo bd_halonodes]; rewrite ?(tw_dim _ _ _ _ _ _ _ TW), ?V1, ?V3, ?V4, ?H1, ?H3, ?H4, ?H5, ?F4, ?F5, ?F6.
  - exact Hd.
  - destruct W2 as (_ & _ & _ & W2). split; [apply zlen_nonneg|]. split; [apply zlen_nonneg|]. split; [cbn; lia | exact W2].
  - destruct W3 as (W31 & W32 & _ & _ & W35 & W36). rewrite N1 in W31. auto 8.
  - intros f Hf. destruct (left1 f32 dim cells nodes labels npart0 epart D D1 VS TW PA CS f Hf) as (EL & HC). split; [destruct (tf f Hf) as [a b r r1 | a r r1 | a f' r r1]; rewrite r; change (0 < 2); lia|]. change (0 <= left_of D f < zlen (dm_center D)). rewrite EL, (proj1 (proj2 len_cells)). exact HC.
  - rewrite H2 in W5. exact W5.
  - intros i Hi. apply In_where in Hi as (Hi & _). lia.
  - intros l HP. unfold side_periodic in *. cbn [dom_bc bd_name] in *. destruct (Z.eq_dec (Spec_bc.periodic_label l) 0) as [E0|N0]; [destruct l; cbn in E0; try discriminate; exact HP|].
    assert (IP : is_periodic dim (Spec_bc.periodic_label l) = true). { apply named in HP as (c & F & OF & E); [|exact N0]. destruct (pm_boundary _ _ _ _ _ PM c F OF) as [B|B]; [|congruence]. exfalso. pose proof Hd. rewrite E in B. destruct l; cbn [Spec_bc.periodic_label] in B, N0; lia. }
    destruct (direction_of _ HP IP) as (a & L & Ha & PD & EL). destruct (pair_named a L Ha PD) as (I1 & I2). destruct EL as [E|E]; destruct l, a; cbn in E; try discriminate E; assumption.
  - intros l Hl HP HS. unfold side_periodic in HP. cbn [dom_bc bd_name] in HP. destruct (side_is l Hl) as (IP & NZ & _). apply (named _ NZ) in HS as (c & F & OF & E). destruct (direction_of _ HP IP) as (a & L & Ha & PD & EL). destruct (pd_plain _ _ _ _ _ _ _ PD c F OF) as (X1 & X2). rewrite E, <- side_periodic_label in X1, X2. destruct EL; auto.
  - intros l n e _ _ HI. exfalso. apply In_where in HI as (Hi & E). apply name_ten. rewrite <- E. apply nthZ_In. exact Hi.
Qed.
Context (bc : list (loc * bctype)) (vs : list (loc * bcval)).
Hypothesis BV : per_bc_valid dim cells labels bc vs.
Lemma settings_per : bc_settings (dom_bc D) bc vs.
Proof.
  destruct BV as (ND & TY & CO & DF & VL). unfold bc_settings, bc_known, bc_consistent, bc_complete, nonslip_readable. cbn [dom_bc bd_dim]. rewrite (tw_dim _ _ _ _ _ _ _ TW).
  split; [|split; [|split; [|split]]].
  - split; [exact ND|]. intros l t Hin. destruct (TY l t Hin) as (A & [-> | [-> | ->]] & _); (split; [exact A|]); split; discriminate.
  - split; [|exact VL]. intros l t Hin. destruct (TY l t Hin) as (A & _ & B). destruct (side_is l A) as (IP & _). unfold side_periodic. cbn [dom_bc bd_name]. rewrite B. symmetry. apply (named _ (periodic_named _ IP)).
  - exact CO.
  - exact DF.
  - intros l ? ? Hin. destruct (TY l _ Hin) as (_ & [X|[X|X]] & _); discriminate X.
Qed.
Lemma ghost_per w g1 g2 X : (forall c, iscell cells c -> nthZ 0%R w c = X c) -> ghosts_updated (dom_bc D) bc vs w g1 g2 ->
  forall f a, isface D1 f -> only_cell dim cells a (fset D1 f) -> 1 <= lab f <= 2 * dim -> nthZ 0%R g2 f = boundary_value dim nodes labels bc vs (fset D1 f) (X a).
Proof.
  intros HW (G1 & G2 & _) f a0 If HO HL. pose proof Hd as Hdim. destruct (fset_facet dim cells nodes (ones nodes) epart 0 D1 PA f If) as (c0 & HF & HO' & HG). set (F := fset D1 f) in *.
  assert (IP : is_periodic dim (flabel dim labels F) = false). { unfold is_periodic, is_x, is_y, is_z. destruct Hdim as [E|E]; rewrite E in *; cbn [Z.eqb Pos.eqb andb]; lia. }
  assert (NM : nthZ 0 (dm_name D) f = flabel dim labels F /\ left_of D f = a0).
  { unfold left_of. destruct (tf f If) as [a b r r1 n n1 cb | a r r1 n n1 one pl | a f' r r1 n n1 one pe].
    - exfalso. destruct (pa_kinds _ _ _ _ _ _ _ PA f c0 F HF HG) as [a' b' Ca Cb two sides row name | a' Ca one row name label | a' Ca Hh other sides row name]; [|lia|lia].
      apply two. apply (gcell_inj dim cells nodes (ones nodes) epart 0 D1 PA a' b' Ca Cb). destruct HO as (_ & U). rewrite (U (gcell D1 a')), (U (gcell D1 b')) by (apply sides; auto). reflexivity.
    - split; [exact n|]. rewrite r. change (a = a0). apply (only_same dim cells a a0 F); assumption.
    - exfalso. fold F in pe. congruence. }
  destruct NM as (name & ELf). assert (Hf : 0 <= f < zlen (bd_name (dom_bc D))) by (cbn [dom_bc bd_name]; rewrite (len_name f32 dim cells nodes labels D D1 TW); exact If).
  destruct BV as (ND & TY & CO & DF & VL). unfold boundary_value. fold (flabel dim labels F). rewrite <- name in *. destruct (side_of_label dim _ Hdim HL) as (l0 & Hl0 & El0).
  destruct (find _ bc) as [(l, t)|] eqn:EF.
  - apply find_some in EF as (HI & HE). cbn [fst] in HE. apply Z.eqb_eq in HE. rewrite (G2 l t f HI Hf) by (symmetry; exact HE). unfold prescribed. destruct (TY l t HI) as (SL & [-> | [-> | ->]] & B).
    + destruct (lookup vs l) as [[g|y|]|]; try reflexivity. cbn [dom_bc bd_fcenter]. destruct (tw_faces _ _ _ _ _ _ _ TW) as (_ & _ & _ & -> & _). destruct (pa_geometry _ _ _ _ _ _ _ PA f F HG) as (_ & _ & EC). rewrite EC. reflexivity.
    + rewrite <- (HW a0 (proj1 (proj1 HO))). f_equal. exact ELf.
    + exfalso. pose proof bcdom_ok as BO. apply (wb_periodic _ BO l); [cbn [dom_bc bd_dim]; rewrite (tw_dim _ _ _ _ _ _ _ TW); exact SL | apply settings_per in HI; apply HI; reflexivity | cbn [dom_bc bd_name]; rewrite HE; apply nthZ_In; exact Hf].
  - exfalso. specialize (CO l0 Hl0). apply in_map_iff in CO as ((l1, t1) & E1 & HI). cbn [fst] in E1. subst l1. pose proof (find_none _ _ EF _ HI) as X0. cbv beta in X0. cbn [fst] in X0. lia.
Qed.

(** ** fluxes *)
Section Flux.
Variables (U : pt) (X : Z -> R) (A : advected) (vel : list pt).
Hypothesis HV : forall f, isface D1 f -> nthZ vzero vel f = U.
Hypothesis HC : forall c, iscell cells c -> nthZ 0%R (ad_c A) c = X c.
Hypothesis HG : forall f a, isface D1 f -> only_cell dim cells a (fset D1 f) -> 1 <= lab f <= 2 * dim -> nthZ 0%R (ad_ghost A) f = boundary_value dim nodes labels bc vs (fset D1 f) (X a).
Lemma flux_per c f : iscell cells c -> In f (nthZ [] (dm_faceid D1) c) ->
  leaves (dom_fv D) (fv_flux dim 1 (dom_fv D) A vel) c f = per_leaving dim cells nodes labels bc vs U X c (fset D1 f).
Proof.
  intros Hc Hf. pose proof Hd as Hdim. destruct (faces_lists dim cells nodes (ones nodes) epart 0 D1 PA CS c f (proj2 (is_cell c) Hc) Hf) as (_ & If & TWO). destruct (fset_facet dim cells nodes (ones nodes) epart 0 D1 PA f If) as (a0 & HF & HO & HGf). set (F := fset D1 f) in *.
  assert (FC : has_facet dim cells c F). { destruct HF as (_ & S1 & S2 & _). split; [exact Hc|]. split; [exact S1|]. split; [exact S2|]. rewrite <- (gcell1 c Hc). apply (proj1 (pa_cellfaces _ _ _ _ _ _ _ PA c f F (proj2 (is_cell c) Hc) HGf)). exact Hf. }
  destruct (pa_geometry _ _ _ _ _ _ _ PA f F HGf) as (HN & _ & _). destruct (tw_faces _ _ _ _ _ _ _ TW) as (_ & EN & _).
  assert (LS : forall n, nthZ vzero (dm_normal D1) f = n -> fv_flux dim 1 (dom_fv D) A vel f = (vdot U n * if Rle_dec 0 (vdot U n) then nthZ 0%R (ad_c A) (cell0 (dom_fv D) f) else right_state dim 1 (dom_fv D) A f)%R).
  { intros n E. unfold fv_flux, throughput, left_state. cbv zeta. rewrite first_order. cbn [dom_fv fv_normal]. rewrite EN, E, (HV f If). reflexivity. }
  destruct (left1 f32 dim cells nodes labels npart0 epart D D1 VS TW PA CS f If) as (ELl & HCl). rewrite (gcell1 _ HCl) in HN.
  assert (BN : only_cell dim cells c F -> beside cells c F = None) by (intros O; apply (beside_none dim cells nodes WF (pm_proper _ _ _ _ _ PM) c F FC); exact O).
  destruct (tf f If) as [a b r r1 n n1 cb | a r r1 n n1 one pl | a f' r r1 n n1 one pe other one' face].
  - assert (E0 : cell0 (dom_fv D) f = a) by (unfold cell0; cbn [dom_fv fv_cellid]; rewrite r; reflexivity). assert (E1 : cell1 (dom_fv D) f = b) by (unfold cell1; cbn [dom_fv fv_cellid]; rewrite r; reflexivity).
    assert (EL : fv_label (dom_fv D) f = 0) by exact n. assert (ELf : left_of D1 f = a) by (unfold left_of; rewrite r1; reflexivity). rewrite ELf in HN, HCl. unfold cell0, cell1 in TWO. cbn [dom_fv fv_cellid] in TWO. rewrite r1 in TWO. change (nthZ 0 [a; b] 0) with a in TWO. change (nthZ 0 [a; b] 1) with b in TWO.
    destruct (pa_kinds _ _ _ _ _ _ _ PA f a0 F HF HGf) as [a' b' Ca Cb two sides row name | a' Ca one row name label | a' Ca Hh other sides row name]; [|lia|lia]. rewrite r1 in row. injection row as <- <-. rewrite (gcell1 a HCl), (gcell1 b cb) in sides.
    assert (Fa : has_facet dim cells a F) by (apply sides; auto). assert (Fb : has_facet dim cells b F) by (apply sides; auto).
    assert (En := outward_unique dim cells nodes WF _ _ _ _ Fa HN (outward_ok dim cells nodes WF (pm_nonflat _ _ _ _ _ PM) _ _ Fa)).
    unfold leaves. rewrite E0, E1, EL. cbn [Z.eqb andb]. specialize (LS _ En). rewrite E0 in LS.
    assert (RS : right_state dim 1 (dom_fv D) A f = X b). { unfold right_state. cbv zeta. rewrite EL, E1. cbn [Z.eqb]. rewrite first_order. apply HC. exact cb. }
    rewrite RS, (HC a HCl) in LS. rewrite LS. unfold per_leaving, per_beyond, next_cell. cbv zeta. destruct TWO as [<-|(_ & <-)].
    + rewrite Z.eqb_refl. destruct (Z.eqb_spec b a) as [E|_]; [congruence|]. rewrite (proj2 (beside_spec dim cells nodes WF (pm_proper _ _ _ _ _ PM) a F b Fa) (conj Fb (not_eq_sym two))). ring.
    + rewrite Z.eqb_refl. destruct (Z.eqb_spec a b) as [E|_]; [congruence|]. rewrite (proj2 (beside_spec dim cells nodes WF (pm_proper _ _ _ _ _ PM) b F a Fb) (conj Fa two)).
      rewrite (outward_two dim cells nodes WF (pm_nonflat _ _ _ _ _ PM) (pm_proper _ _ _ _ _ PM) a b F Fa Fb two).
      replace (vdot U (vscal (-1) (outward cells nodes a F))) with (- vdot U (outward cells nodes a F))%R by (unfold vdot, vscal; cbn [px py pz]; ring). rewrite <- upwind_opp. ring.
  - fold F in n, one, pl. assert (a = c) by (symmetry; apply (proj2 one); exact FC). subst a.
    assert (E0 : cell0 (dom_fv D) f = c) by (unfold cell0; cbn [dom_fv fv_cellid]; rewrite r; reflexivity). assert (ELf : left_of D1 f = c) by (unfold left_of; rewrite r1; reflexivity). rewrite ELf in HN.
    assert (EL : fv_label (dom_fv D) f = flabel dim labels F) by exact n.
    assert (En := outward_unique dim cells nodes WF _ _ _ _ FC HN (outward_ok dim cells nodes WF (pm_nonflat _ _ _ _ _ PM) _ _ FC)). specialize (LS _ En). rewrite E0, (HC c Hc) in LS.
    assert (RS : right_state dim 1 (dom_fv D) A f = boundary_value dim nodes labels bc vs F (X c)).
    { unfold right_state. cbv zeta. rewrite EL. revert pl. intros pl. destruct (Z.eqb_spec (flabel dim labels F) 0); [lia|]. destruct (is_periodic dim (flabel dim labels F)) eqn:IP; [exfalso; revert pl IP; generalize (flabel dim labels F); intros l pl IP; unfold is_periodic, is_x, is_y, is_z in IP; lia|]. destruct (Z.eqb_spec (flabel dim labels F) 10); [lia|]. apply HG; [exact If | exact one | exact pl]. }
    unfold leaves. rewrite E0, Z.eqb_refl, LS, RS. rewrite EL. destruct (Z.eqb_spec (flabel dim labels F) 0); [lia|]. cbn [andb]. unfold per_leaving, per_beyond, next_cell. cbv zeta. rewrite (BN one), (across_plain f32 dim cells nodes labels PM c F one pl). cbn [option_map]. ring.
  - fold F in n, one, pe, face. assert (a = c) by (symmetry; apply (proj2 one); exact FC). subst a.
    assert (E0 : cell0 (dom_fv D) f = c) by (unfold cell0; cbn [dom_fv fv_cellid]; rewrite r; reflexivity). assert (E1 : cell1 (dom_fv D) f = left_of D1 f') by (unfold cell1; cbn [dom_fv fv_cellid]; rewrite r; reflexivity). assert (ELf : left_of D1 f = c) by (unfold left_of; rewrite r1; reflexivity). rewrite ELf in HN.
    assert (EL : fv_label (dom_fv D) f = flabel dim labels F) by exact n. assert (N0 : flabel dim labels F <> 0) by (apply periodic_named; exact pe).
    assert (En := outward_unique dim cells nodes WF _ _ _ _ FC HN (outward_ok dim cells nodes WF (pm_nonflat _ _ _ _ _ PM) _ _ FC)). specialize (LS _ En). rewrite E0, (HC c Hc) in LS.
    assert (RS : right_state dim 1 (dom_fv D) A f = X (left_of D1 f')).
    { unfold right_state. cbv zeta. rewrite EL, pe, E1. destruct (Z.eqb_spec (flabel dim labels F) 0); [contradiction|]. rewrite first_order. apply HC. exact (proj1 (proj1 one')). }
    assert (AD : across_domain dim cells nodes labels F = Some (left_of D1 f', fset D1 f')).
    { destruct face as (ax & L & Ha & PD & [(L1 & L2 & AC)|(L1 & L2 & AC)]); [apply (across_ok f32 dim cells nodes labels PM ax L c F (left_of D1 f') (fset D1 f')); assumption | apply (across_ok f32 dim cells nodes labels PM ax L (left_of D1 f') (fset D1 f') c F); assumption]. }
    unfold leaves. rewrite E0, Z.eqb_refl, LS, RS. rewrite EL. destruct (Z.eqb_spec (flabel dim labels F) 0); [contradiction|]. cbn [andb]. unfold per_leaving, per_beyond, next_cell. cbv zeta. rewrite (BN one), AD. cbn [option_map fst]. ring.
Qed.
End Flux.

(** ** velocities and time step: the tables of the other domain *)
Lemma same_velocity U old : cell_velocity U D old = cell_velocity U D1 old.
Proof. unfold cell_velocity. cbv zeta. destruct (tw_cells _ _ _ _ _ _ _ TW) as (_ & _ & -> & _). rewrite (len_cellid f32 dim cells nodes labels D D1 TW), (len_cellid1 dim cells nodes epart D1 PA), (tw_dim _ _ _ _ _ _ _ TW), (cs_dim _ _ CS). reflexivity. Qed.
Lemma same_vel s : vel_ok D s <-> vel_ok D1 s. Proof. unfold vel_ok. destruct (tw_cells _ _ _ _ _ _ _ TW) as (-> & _). tauto. Qed.
Lemma velocity_per U old : vel_ok D old -> exists s, cell_velocity U D old = Ok s /\ vel_ok D s /\ components (fst (fst s)) (snd (fst s)) (snd s) = zeros_like U (zlen (dm_center D)).
Proof.
  intros HO. rewrite same_velocity. destruct (velocity_ok dim cells nodes (ones nodes) epart 0 D1 VM PA CS U old (proj1 (same_vel old) HO)) as (s & E & V & C). exists s. split; [exact E|]. split; [apply same_vel; exact V|]. destruct (tw_cells _ _ _ _ _ _ _ TW) as (-> & _). exact C.
Qed.
Lemma timestep_per U cfl : (0 < cfl)%R ->
  exists dt, time_step (dm_dim D) (zeros_like U (zlen (dm_center D))) (dm_normal D) cfl (dm_mesure D) (dm_volume D) (dm_faceid D) (P3 0 0 0) = Ok (Some dt) /\ (0 < dt)%R /\ largest_step cells nodes U cfl dt.
Proof.
  intros Hcfl. destruct (timestep_ok dim cells nodes (ones nodes) epart 0 D1 VM PA CS U cfl Hcfl) as (dt & E & B & F & M). exists dt. destruct (tw_cells _ _ _ _ _ _ _ TW) as (-> & -> & -> & _). destruct (tw_faces _ _ _ _ _ _ _ TW) as (_ & -> & -> & _). rewrite (tw_dim _ _ _ _ _ _ _ TW). rewrite (cs_dim _ _ CS) in E.
  split; [exact E|]. split; [lra|]. split.
  - split; [lra|]. intros c Hc. specialize (F c (proj2 (is_cell c) Hc)). rewrite (gcell1 c Hc) in F. exact F.
  - intros d (D2 & D3). destruct M as [->|(c & Hc & S0 & ES)]; [exact D2|]. apply (proj1 (is_cell c)) in Hc. rewrite (gcell1 c Hc) in *. specialize (D3 c Hc). rewrite <- ES in D3. apply (Rmult_le_reg_r _ _ _ S0 D3).
Qed.

(** ** the update *)
Lemma advance_per U dt X w v : vinv (dom_bc D) bc vs w v -> zlen w = zlen cells -> (forall c, iscell cells c -> nthZ 0%R w c = X c) ->
  zlen (nthZ [] (va_heap v) 2) = 0 -> zlen (va_heap v) = 9 -> zlen (nthZ [] (va_heap v) 3) = zlen (dm_name D) ->
  (forall f a, isface D1 f -> only_cell dim cells a (fset D1 f) -> 1 <= lab f <= 2 * dim -> nthZ 0%R (nthZ [] (va_heap v) 3) f = boundary_value dim nodes labels bc vs (fset D1 f) (X a)) ->
  exists v' w', advance_rank U dt D v = Ok v' /\ vinv (dom_bc D) bc vs w' v' /\ zlen w' = zlen cells /\ forall c, iscell cells c -> nthZ 0%R w' c = per_step dim cells nodes labels bc vs U dt X c.
Proof.
  intros VI HL HW LH H9 LG HG. pose proof (len_name f32 dim cells nodes labels D D1 TW) as N1. pose proof (len_cellid f32 dim cells nodes labels D D1 TW) as N2. destruct (fv_ok f32 dim cells nodes labels epart D D1 PM TW PA CS FD) as (WFV & WL).
  destruct len_cells as (LL & LC & LC1). destruct (pa_sizes _ _ _ _ _ _ _ PA) as (_ & _ & S3 & _). destruct (tw_cells _ _ _ _ _ _ _ TW) as (_ & EVo & _). destruct (tw_halos _ _ _ _ _ _ _ TW) as (EH & _).
  pose proof (zlen_nonneg (dm_center D)) as P1. pose proof (zlen_nonneg (dm_cellid D)) as P3'.
  unfold advance_rank. rewrite (vinv_cell _ _ _ _ _ VI). cbn [bind]. unfold ghost_of. rewrite (get_nthZ []) by (rewrite H9; unfold r_ghost; lia). cbn [bind]. rewrite (get_nthZ []) by (rewrite H9; unfold r_halo; lia). cbn [bind]. cbv zeta.
  change r_ghost with 3. change r_halo with 2. rewrite (tw_dim _ _ _ _ _ _ _ TW). set (A := {| ad_c := w |}).
  assert (WA : wf_advected (dom_fv D) A (zeros_like U (zlen (dm_cellid D)))). { unfold wf_advected, A. cbn [ad_c ad_grad ad_psi ad_halo ad_gradh ad_psih ad_ghost dom_fv fv_centerc fv_centerh fv_cellid]. rewrite EH. change (zlen (@nil pt)) with 0. rewrite !zlen_zeros_like by (assumption || lia). rewrite LG. repeat (split; [lia|]). lia. }
  destruct (C29_convection_conservative dim 1 (dom_fv D) (dom_lists D) A _ WFV WL WA) as (rez & ER & LR & VR & _). cbn [dom_fv fv_centerc] in ER, LR, VR. unfold dom_fv in ER |- *. rewrite ER. cbn [bind].
  assert (VOL : forall c, iscell cells c -> nthZ 0%R (dm_volume D) c = measure_of cells nodes c /\ (0 < nthZ 0%R (dm_volume D) c)%R).
  { intros c Hc. rewrite EVo. destruct (pa_cell _ _ _ _ _ _ _ PA c (proj2 (is_cell c) Hc)) as (_ & _ & V1 & V2). rewrite (gcell1 c Hc) in V1. split; [exact V1 | exact V2]. }
  destruct (Proofs_fvm2.update_ok w rez (zeros_like 0%R (zlen (dm_center D))) (zeros_like 0%R (zlen (dm_center D))) (dm_volume D) dt) as (new & EN & LN & VN); [congruence | rewrite zlen_zeros_like by assumption; congruence | rewrite zlen_zeros_like by assumption; congruence | rewrite EVo; lia | |].
  { intros c Hc. pose proof (proj2 (VOL c ltac:(unfold iscell; lia))). lra. }
  rewrite EN. cbn [bind].
  assert (ET : exists w', total new = Ok w' /\ zlen w' = zlen cells /\ forall c, 0 <= c < zlen cells -> nthZ None new c = Some (nthZ 0%R w' c)).
  { exists (map (fun o => match o with Some x => x | None => 0%R end) new). split; [|split].
    - unfold total. apply mapM_ok. intros o Ho. destruct (In_nthZ None _ _ Ho) as (c & Hc & <-). rewrite VN by lia. reflexivity.
    - rewrite zlen_map. lia.
    - intros c Hc. rewrite (nthZ_map _ None) by lia. rewrite VN by lia. reflexivity. }
  destruct ET as (w' & ET & LT & VT). rewrite ET. cbn [bind].
  destruct (write_cell_ok (dom_bc D) bc vs bcdom_ok settings_per w v w' VI) as (v' & EV & VI'); [cbn [dom_bc bd_nbcells]; lia|]. exists v', w'. split; [exact EV|]. split; [exact VI'|]. split; [exact LT|].
  intros c Hc. pose proof Hc as Hc'. unfold iscell in Hc'. pose proof (VT c Hc') as V. rewrite (VN c) in V by lia. injection V as <-. fold (dom_fv D) in VR. rewrite VR by lia.
  assert (EA : forall f, isface D1 f -> nthZ vzero (zeros_like U (zlen (dm_cellid D))) f = U). { intros f Hf. unfold isface in Hf. unfold zeros_like. rewrite (nthZ_map _ 0) by (rewrite zlen_range; lia). reflexivity. }
  rewrite (sum_row f32 dim cells nodes labels npart0 epart D D1 PM VS TW PA CS _ (per_leaving dim cells nodes labels bc vs U X c) c Hc).
  - unfold per_step. rewrite (HW c Hc). rewrite nthZ_zeros_like by lia. rewrite (proj1 (VOL c Hc)). unfold Rdiv. ring.
  - intros f Hf. apply (flux_per U X A _ EA HW HG c f Hc Hf).
Qed.
End Run.
