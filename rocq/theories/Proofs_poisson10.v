(** * Proofs_poisson10: the gradient of the solution on all the ranks, and its divergence (C76). *)
From Coq Require Import Reals Lra Permutation Sorted.
From Verif Require Import Py PyLemmas Model_part Spec_part Model_label Model_conn Spec_conn Proofs_conn1 Proofs_conn2 Model_geom Spec_geom Proofs_geom1 Proofs_geom2 Proofs_geom3
  Model_halo Spec_halo Model_interp Spec_interp Proofs_interp4 Proofs_interp5 Proofs_interp6 Spec_lsq Proofs_lsq Properties_lsq Model_fvm Spec_fvm Proofs_fvm1 Proofs_fvm2 Properties_fvm Model_bc Spec_bc Spec_bc3 Proofs_label Proofs_bc Proofs_bc2 Proofs_bc3 Properties_bc3 Model_domain Spec_domain Proofs_domain1 Proofs_domain4
  Model_comm Model_parallel Spec_parallel Proofs_parallel1 Proofs_parallel6 Properties_parallel Model_run Spec_run Proofs_run1 Proofs_run2 Proofs_run3 Proofs_run4 Proofs_run5 Proofs_run6 Spec_run2 Model_run2 Proofs_run7 Proofs_run8 Proofs_run9 Proofs_run10 Proofs_run11 Proofs_run12 Proofs_run13 Proofs_run14 Proofs_run15 Spec_run3 Proofs_run16 Model_poisson Spec_poisson Proofs_poisson1 Proofs_poisson2 Proofs_poisson3 Spec_poisson2 Spec_poisson3 Proofs_poisson4 Proofs_poisson6 Proofs_poisson7 Proofs_poisson8 Proofs_poisson9.
From Verif Require Model_linsys Spec_linsys Proofs_linsys1 Properties_linsys Proofs_linsys9 Proofs_periodic.
Open Scope Z_scope.

Section Mesh10.
Context (dim : Z) (cells : list (list Z)) (nodes : list pt) (labels : list Z) (bc : list (loc * bctype)) (vs : list (loc * bcval)).
Hypothesis VM : valid_mesh dim cells nodes labels.
Notation solution_slope := (solution_slope dim cells nodes labels bc vs).
Notation nfix := (node_fixed nodes labels bc vs).
Notation ffix := (facet_fixed dim nodes labels bc vs).
Lemma solution_slope_unique X N c F s s' : has_facet dim cells c F -> beside cells c F <> None \/ ffix F = None \/ (forall g, In g F -> nfix g <> None) -> solution_slope X N c F s -> solution_slope X N c F s' -> s = s'.
Proof.
  intros HF HK (G & A & B) (G' & A' & B'). apply vsub_zero. set (d := vsub s s').
  assert (GD : gradient dim d) by (intros E; unfold d, vsub; cbn [pz]; rewrite (G E), (G' E); ring).
  assert (AD : forall a b, In a F -> In b F -> vdot d (vsub (at_node nodes b) (at_node nodes a)) = 0%R).
  { intros a b Ha Hb. unfold d. rewrite vdot_subl, A, A'; try assumption; [ring | |]; (destruct HK as [HK|[HK|HK]]; [tauto | tauto | right; right; split; apply HK; assumption]). }
  pose proof (perpendicular dim cells nodes labels VM c F d HF GD AD) as PE. cbv zeta in PE. pose proof (area_nonzero dim cells nodes labels VM c F HF) as AN. set (n := area_vector nodes F) in *.
  destruct (area_outward dim cells nodes labels VM c F HF) as (k & Hk & EA). fold n in EA.
  assert (ND : vdot n d = 0%R).
  { destruct (beside cells c F) as [e|] eqn:EB.
    - assert (BD : vdot d (vsub (centre dim cells nodes e) (centre dim cells nodes c)) = 0%R) by (unfold d; rewrite vdot_subl, B, B'; ring).
      pose proof (point_outside dim cells nodes labels VM c F HF) as PO. unfold point_beyond in PO. rewrite EB in PO. set (q := vsub (centre dim cells nodes e) (centre dim cells nodes c)) in *.
      assert (NE : vdot n q <> 0%R) by (rewrite EA, vdot_scal; destruct Hk as [-> | ->]; lra).
      assert (E : (vdot n d * vdot n q = 0)%R) by (rewrite <- vdot_scal, <- PE, vdot_scal, BD; ring). destruct (Rmult_integral _ _ E); [assumption | contradiction].
    - rewrite EA, vdot_scal, vdot_comm. unfold d. rewrite vdot_subl, B, B'. ring. }
  apply (vscal_zero (vdot n n)); [exact AN|]. rewrite PE, ND. unfold vscal, vzero. f_equal; ring.
Qed.
(** at the facet between two cells both see the same slope *)
Lemma solution_slope_swap X N c d F s : has_facet dim cells c F -> beside cells c F = Some d -> solution_slope X N c F s -> solution_slope X N d F s.
Proof.
  intros HF E (G & A & B). destruct (beside_swap dim cells nodes labels VM c d F HF E) as (HF' & NE & E'). split; [exact G|]. split.
  - intros a b Ha Hb _. apply A; try assumption. left. congruence.
  - rewrite E in B. rewrite E'. replace (X c - X d)%R with (- (X d - X c))%R by ring. rewrite <- B. unfold vdot, vsub. cbn [px py pz]. ring.
Qed.
(** where the sides are closed, the interpolated values are the ones of the system *)
Lemma nodal_free X N g : sides_closed dim cells nodes labels bc vs -> nfix g = None -> nodal_value dim cells nodes labels bc vs X g N -> nodal_value dim cells nodes labels [] [] X g N.
Proof.
  intros SD HG (c0 & s & HB & E). exists c0, s. split; [|exact E]. replace (around_node dim cells nodes labels [] [] X g) with (around_node dim cells nodes labels bc vs X g); [exact HB|].
  unfold around_node. f_equal. apply map_ext_in. intros (c, F) Hp. unfold boundary_at in Hp. apply filter_In in Hp as (Hp & Hm). apply mem_In in Hm. cbn [snd] in Hm. unfold mirrored. cbn [fst snd]. f_equal.
  rewrite (free_boundary dim nodes labels bc vs); [reflexivity|]. destruct (ffix F) eqn:EF; [|reflexivity]. exfalso. apply (SD c F g Hp ltac:(congruence) Hm). exact HG.
Qed.
Lemma shown_values X N : sides_closed dim cells nodes labels bc vs -> (forall c g, iscell cells c -> In g (cell cells c) -> nodal_value dim cells nodes labels bc vs X g (N g)) ->
  node_values dim cells nodes labels bc vs X (shown_value nodes labels bc vs N).
Proof.
  intros SD HN c g Hc Hg. unfold node_value, shown_value. destruct (nfix g) eqn:E; [reflexivity|]. exact (nodal_free X _ g SD E (HN c g Hc Hg)).
Qed.
Lemma slope_flux X N c F s : has_facet dim cells c F -> solution_slope X N c F s -> gradient_flux dim cells nodes labels bc vs X (shown_value nodes labels bc vs N) c F (vdot s (outward cells nodes c F)).
Proof.
  intros HF (G & A & B). unfold gradient_flux. cbv zeta. destruct (beside cells c F) as [d|] eqn:E.
  - exists s. split; [|reflexivity]. split; [exact G|]. split; [|exact B]. intros a b Ha Hb. apply A; try assumption. left. congruence.
  - rewrite B. unfold dirichlet_flux. cbv zeta. destruct (ffix F); reflexivity.
Qed.
Lemma slope_laplacian X N G c : sides_closed dim cells nodes labels bc vs -> (forall c g, iscell cells c -> In g (cell cells c) -> nodal_value dim cells nodes labels bc vs X g (N g)) ->
  iscell cells c -> (forall F, In F (facets (cell cells c)) -> solution_slope X N c F (G F)) ->
  laplacian dim cells nodes labels bc vs X c (/ measure_of cells nodes c * rsum (map (fun F => vdot (G F) (outward cells nodes c F)) (facets (cell cells c))))%R.
Proof.
  intros SD HN Hc HG. exists (shown_value nodes labels bc vs N), (fun F => vdot (G F) (outward cells nodes c F)). split; [exact (shown_values X N SD HN)|]. split; [|reflexivity]. intros F HF. apply slope_flux; [exact (in_facets dim cells nodes labels VM c F Hc HF) | exact (HG F HF)].
Qed.
End Mesh10.

Section Ranks10.
Context (dim SIZE : Z) (cells : list (list Z)) (nodes : list pt) (labels npart0 epart : list Z) (st : setting).
Hypothesis VM : valid_mesh dim cells nodes labels.
Hypothesis PL : dim = 2 -> planar nodes.
Hypothesis VS : valid_split dim SIZE cells nodes npart0 epart.
Notation Ds := (se_domains st).
Notation Dr := (domain_of (se_domains st)).
Hypothesis RP : represents dim SIZE cells nodes labels epart Ds.
Hypothesis SC : star_connected dim cells.
Hypothesis CS : forall r, 0 <= r < SIZE -> consistent dim (Dr r).
Hypothesis HX : 1 < SIZE -> forall (V : Type) (d : V) (X : Z -> V) (w : list (list V)), values_of d SIZE Ds X w -> exists halo, update_halo_value SIZE (se_comms st) w = Ok halo /\ halo_values_of d SIZE Ds X halo.
Context (bc : list (loc * bctype)) (vs : list (loc * bcval)).
Hypothesis BV : bc_valid dim bc vs.
Hypothesis CW : corners_whole dim cells labels bc epart.
Hypothesis SP : spanned dim cells nodes.
Notation PAr := (rp_part _ _ _ _ _ _ _ RP).
Notation sees := (sees dim SIZE cells nodes labels Ds bc vs).
Notation shows := (shows dim SIZE cells nodes labels st bc vs).
Notation holds := (holds SIZE st bc vs).
Notation size1 := (size11 dim SIZE cells nodes npart0 epart VS).
Notation solution_slope := (solution_slope dim cells nodes labels bc vs).

Lemma solution_rank_ok r vb X N w v W B g : 0 <= r < SIZE -> vfull (dom_bc (Dr r)) bc vs w v -> arrays v = Ok W -> sees r X W -> boundary_values (dom_bc (Dr r)) bc vb B -> zlen (nthZ [] (va_heap v) r_node) = zlen (dm_nodeglob (Dr r)) ->
  (forall k, isnode_of (Dr r) k -> nthZ 0%R (nthZ [] (va_heap v) r_node) k = N (gnode (Dr r) k)) -> zlen g = zlen (dm_cellid (Dr r)) ->
  exists gs, solution_gradient_rank (Dr r) v B g = Ok gs /\ zlen gs = zlen (dm_cellid (Dr r)) /\
  forall c f, iscell_of (Dr r) c -> In f (nthZ [] (dm_faceid (Dr r)) c) -> Spec_poisson3.solution_slope dim cells nodes labels bc vb X N (gcell (Dr r) c) (fset (Dr r) f) (vneg (nthZ vzero gs f)).
Proof.
  intros Hr F EA SE BD LN HN LG. unfold solution_gradient_rank. rewrite EA. cbn [bind]. rewrite (get_nthZ []) by (pose proof (full_heap _ _ _ _ _ F); unfold r_node; lia). cbn [bind]. rewrite (cs_dim _ _ (CS r Hr)).
  destruct (lists_of_variable dim SIZE cells nodes labels npart0 epart st VM PL VS RP SC CS bc vs BV CW SP r w v Hr F) as (LO & LI).
  destruct (solution_slope_ok dim cells nodes labels epart r (Dr r) VM PL (PAr r Hr) (CS r Hr) bc vs BV w v F B vb BD X N W _ (se_wf _ _ _ _ _ _ _ _ _ _ _ SE) (se_cell _ _ _ _ _ _ _ _ _ _ _ SE) (se_halo _ _ _ _ _ _ _ _ _ _ _ SE) (se_ghost _ _ _ _ _ _ _ _ _ _ _ SE) LN HN (var_lists (Dr r) v) (map Some g) LO LI) as (gs0 & E0 & L0 & H0); [reflexivity | rewrite zlen_map; exact LG|].
  rewrite E0. cbn [bind].
  destruct (known_ok vzero gs0 (fun f s => nthZ None gs0 f = Some s)) as (gs & EK & LK & HK).
  { intros f Hf. assert (If : isface (Dr r) f) by (unfold isface; destruct (pa_sizes _ _ _ _ _ _ _ (PAr r Hr)) as (_ & _ & _ & _ & SF & _); lia). destruct (fset_facet dim cells nodes labels epart r (Dr r) (PAr r Hr) f If) as (a & HF & HO & HG). subst r.
    destruct (gcell_onto dim cells nodes labels epart _ (Dr _) (PAr _ Hr) a (proj1 HF) eq_refl) as (c & Hc & Ec). destruct (H0 c f Hc) as (s & Es & _); [|exists (vneg s); auto]. apply (pa_cellfaces _ _ _ _ _ _ _ (PAr _ Hr) c f _ Hc HG). rewrite Ec. apply HF. }
  exists gs. split; [exact EK|]. split; [lia|]. intros c f Hc Hf. destruct (faces_lists dim cells nodes labels epart r (Dr r) (PAr r Hr) (CS r Hr) c f Hc Hf) as (_ & If & _). destruct (H0 c f Hc Hf) as (s & Es & FS). specialize (HK f ltac:(unfold isface in If; destruct (pa_sizes _ _ _ _ _ _ _ (PAr r Hr)) as (_ & _ & _ & _ & SF & _); lia)). cbv beta in HK. rewrite Es in HK. injection HK as <-. rewrite vneg_vneg. exact FS.
Qed.
(** the data of the boundary a system keeps *)
Lemma system_bord X0 l sol user ss : holds X0 l -> new_system SIZE st l sol user = Ok ss -> forall r, 0 <= r < SIZE -> exists B, get (ss_bord ss) r = Ok B /\ Spec_linsys.boundary_data (dom_bc (Dr r)) bc vs B.
Proof.
  intros (ws & Ll & _ & HO) E r Hr. unfold new_system in E. apply bind_ok in E as (bs & EB & E). apply bind_ok in E as (gl & _ & E). apply bind_ok in E as (ls & _ & E). injection E as <-. cbn [ss_bord].
  destruct (mapM_rank _ SIZE bs r EB Hr) as (_ & B & EG & EF). exists B. split; [exact EG|]. rewrite (dom11 dim SIZE cells nodes labels epart st RP r Hr) in EF. cbn [bind] in EF. destruct (HO r Hr) as (v & Ev & FU). rewrite Ev in EF. cbn [bind] in EF.
  destruct (system_rank dim SIZE cells nodes labels epart Ds VM PL RP SC SP (owners11 dim SIZE cells nodes npart0 epart VS) CS bc vs BV r _ v Hr FU) as (B' & n & es & rhs & glob & SO). rewrite (so_bord _ _ _ _ _ _ _ _ _ _ _ _ _ _ _ SO) in EF. injection EF as <-. exact (so_data _ _ _ _ _ _ _ _ _ _ _ _ _ _ _ SO).
Qed.
Lemma solution_gradient_with vb X l bs g : holds X l -> (forall r, 0 <= r < SIZE -> exists B, get bs r = Ok B /\ boundary_values (dom_bc (Dr r)) bc vb B) ->
  (forall r, 0 <= r < SIZE -> exists x, get g r = Ok x /\ zlen x = zlen (dm_cellid (Dr r))) ->
  exists l' gs N G, solution_gradient SIZE st bs l g = Ok (l', gs) /\ interpolate_celltonode SIZE st l = Ok l' /\ holding SIZE st X l' /\ node_field SIZE st N l' /\ face_field dim cells SIZE st G gs /\
    (forall c k, iscell cells c -> In k (cell cells c) -> nodal_value dim cells nodes labels bc vs X k (N k)) /\
    (forall c F, iscell cells c -> In F (facets (cell cells c)) -> Spec_poisson3.solution_slope dim cells nodes labels bc vb X N c F (vneg (G c F))).
Proof.
  intros HH HB HG0. pose proof size1 as S1. destruct (interpolate_ok dim SIZE cells nodes labels npart0 epart st VM PL VS RP SC CS HX bc vs BV CW SP X l HH) as (l1 & E1 & HS & NV). pose proof HS as (ws & L1 & V1 & H1). unfold solution_gradient. rewrite E1. cbn [bind].
  destruct (nodes_field dim SIZE cells nodes labels npart0 epart st VM VS RP bc vs X l1 NV) as (N & HN & NR).
  destruct (mapM_ranks (fun r => do D <- get Ds r; do v <- get l1 r; do B <- get bs r; do g <- get g r; solution_gradient_rank D v B g) (fun r gs => zlen gs = zlen (dm_cellid (Dr r)) /\
     forall c f, iscell_of (Dr r) c -> In f (nthZ [] (dm_faceid (Dr r)) c) -> Spec_poisson3.solution_slope dim cells nodes labels bc vb X N (gcell (Dr r) c) (fset (Dr r) f) (vneg (nthZ vzero gs f))) SIZE ltac:(lia)) as (gs & EF & LF & HF).
  { intros r Hr. rewrite (dom11 dim SIZE cells nodes labels epart st RP r Hr). cbn [bind]. destruct (H1 r Hr) as (v & W & Ev & FU & EA & SE). destruct (NR r Hr) as (v' & Ev' & LN & HNr). rewrite Ev in Ev'. injection Ev' as <-. rewrite Ev. cbn [bind]. destruct (HB r Hr) as (B & EB & BD). rewrite EB. cbn [bind]. destruct (HG0 r Hr) as (x & Ex & Lx). rewrite Ex. cbn [bind].
    destruct (solution_rank_ok r vb X N _ v W B x Hr FU EA SE BD LN HNr Lx) as (gs & E & L & H). exists gs. auto. }
  rewrite EF. cbn [bind]. destruct (facets_field dim SIZE cells nodes labels epart st RP CS gs) as (G & HG). exists l1, gs, N, G. split; [reflexivity|]. split; [reflexivity|]. split; [exact (holds_holding dim SIZE cells nodes npart0 epart st VS bc vs _ _ (shows_holds _ _ _ _ _ _ _ _ _ _ HS))|]. split; [|split; [|split]].
  - intros r Hr D. destruct (NR r Hr) as (v & Ev & LN & Q). destruct (H1 r Hr) as (v' & W & Ev' & FU & _). rewrite Ev in Ev'. injection Ev' as <-. exists v, (nthZ [] (va_heap v) r_node). split; [exact Ev|]. split; [apply get_nthZ; pose proof (full_heap _ _ _ _ _ FU); unfold r_node; lia|]. split; [|exact Q]. unfold D. destruct (pa_sizes _ _ _ _ _ _ _ (PAr r Hr)) as (_ & _ & _ & _ & _ & _ & SV & _). lia.
  - split; [exact LF|]. intros r Hr D. destruct (HF r Hr) as (x & Ex & _ & Lx & _). exists x. split; [exact Ex|]. split; [exact Lx|]. rewrite (get_nthZ []) in Ex by lia. injection Ex as <-. intros c f F Hc HFc HGf. rewrite <- (fset_eq dim cells (Dr r) f F _ HFc HGf). apply (HG r c f Hr Hc). apply (pa_cellfaces _ _ _ _ _ _ _ (PAr r Hr) c f F Hc HGf). apply HFc.
  - exact HN.
  - intros c F Hc HIn. destruct (rank_of dim SIZE cells nodes labels npart0 epart st VS RP c Hc) as (r & a & Hr & Ha & <-). apply (in_row dim cells nodes labels epart r (Dr r) VM (PAr r Hr) (CS r Hr) a F Ha) in HIn as (f & Hf & ->). destruct (HF r Hr) as (x & Ex & _ & _ & Q). rewrite (get_nthZ []) in Ex by lia. injection Ex as <-. rewrite <- (HG r a f Hr Ha Hf). exact (Q a f Ha Hf).
Qed.
Lemma solution_gradient_ok X l bs g : holds X l -> (forall r, 0 <= r < SIZE -> exists B, get bs r = Ok B /\ Spec_linsys.boundary_data (dom_bc (Dr r)) bc vs B) ->
  (forall r, 0 <= r < SIZE -> exists x, get g r = Ok x /\ zlen x = zlen (dm_cellid (Dr r))) ->
  exists l' gs N G, solution_gradient SIZE st bs l g = Ok (l', gs) /\ interpolate_celltonode SIZE st l = Ok l' /\ holding SIZE st X l' /\ node_field SIZE st N l' /\ face_field dim cells SIZE st G gs /\
    (forall c k, iscell cells c -> In k (cell cells c) -> nodal_value dim cells nodes labels bc vs X k (N k)) /\
    (forall c F, iscell cells c -> In F (facets (cell cells c)) -> solution_slope X N c F (vneg (G c F))).
Proof. intros HH HB. apply (solution_gradient_with vs X l bs g HH). intros r Hr. destruct (HB r Hr) as (B & EB & BD). exists B. split; [exact EB | exact (data_values _ _ _ _ BD)]. Qed.
End Ranks10.
