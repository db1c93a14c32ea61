(** * Proofs_run22: the state of the shallow-water program on all the ranks; friction and time step. *)
From Coq Require Import Reals Lra Psatz Permutation Sorted.
From Verif Require Import Py PyLemmas Model_part Spec_part Model_label Model_conn Spec_conn Proofs_conn1 Proofs_conn2 Model_geom Spec_geom Proofs_geom1 Proofs_geom2 Proofs_geom3
  Model_halo Spec_halo Model_interp Spec_interp Spec_lsq Proofs_lsq Model_fvm Spec_fvm Proofs_fvm1 Proofs_fvm2 Model_bc Spec_bc Spec_bc3 Proofs_label Proofs_bc Proofs_bc2 Proofs_bc3 Model_domain Spec_domain
  Model_comm Model_parallel Spec_parallel Proofs_parallel1 Model_run Spec_run Proofs_run1 Proofs_run2 Proofs_run3 Proofs_run4 Proofs_run5 Proofs_run6 Spec_run2 Model_run2 Proofs_run7 Proofs_run8 Proofs_run9 Proofs_run10 Proofs_run11 Proofs_run12 Proofs_run13 Proofs_run14.
From Verif Require Import Model_sw Proofs_sw5 Proofs_sw6 Proofs_sw7 Model_run3 Spec_run4 Proofs_run17 Proofs_run18 Proofs_run19 Proofs_run20 Proofs_run21.
From Verif Require Spec_sw Properties_sw Proofs_sw8.
Open Scope Z_scope.


Lemma together_len h hu hv hc z : zlen (together h hu hv hc z) = zlen h.
Proof. unfold together. rewrite zlen_map, zlen_range by apply zlen_nonneg. reflexivity. Qed.
Lemma together_at h hu hv hc z i : 0 <= i < zlen h -> nthZ q5_zero (together h hu hv hc z) i = {| q_h := nthZ 0%R h i; q_hu := nthZ 0%R hu i; q_hv := nthZ 0%R hv i; q_hc := nthZ 0%R hc i; q_Z := nthZ 0%R z i |}.
Proof. intros Hi. unfold together. rewrite (nthZ_map _ 0) by (rewrite zlen_range; lia). rewrite nthZ_range by lia. reflexivity. Qed.
Lemma q5_eta w : {| q_h := q_h w; q_hu := q_hu w; q_hv := q_hv w; q_hc := q_hc w; q_Z := q_Z w |} = w.
Proof. destruct w; reflexivity. Qed.

(** a chain of optional values *)
Lemma chain_none {X V} (f : option V -> X -> res (option V)) l : (forall x o, f None x = Ok o -> o = None) -> forall o, foldM f l None = Ok o -> o = None.
Proof. intros H. induction l as [|x l IH]; intros o E; cbn [foldM] in E; [injection E as <-; reflexivity|]. apply bind_ok in E as (o1 & E1 & E2). rewrite (H x o1 E1) in E2. exact (IH o E2). Qed.
Lemma chain_some {X V} (f : option V -> X -> res (option V)) (P : X -> Prop) l : (forall x o, f None x = Ok o -> o = None) -> (forall s x s', f s x = Ok (Some s') -> P x) ->
  forall s y, foldM f l s = Ok (Some y) -> forall x, In x l -> P x.
Proof.
  intros H HP. induction l as [|a l IH]; intros s y E x Hx; [destruct Hx|]. cbn [foldM] in E. apply bind_ok in E as (o & E1 & E2). destruct o as [v|]; [|apply (chain_none f l H) in E2; discriminate E2].
  destruct Hx as [<-|Hx]; [exact (HP _ _ _ E1) | exact (IH _ _ E2 x Hx)].
Qed.
Lemma lam_wet w normal mesure volume faceid Dx Dy i x : sw_lam w normal mesure volume faceid Dx Dy i = Ok (Some x) -> exists q, get w i = Ok q /\ (0 < q_h q)%R.
Proof.
  unfold sw_lam. intros E. apply bind_ok in E as (q & Eq & E). exists q. split; [exact Eq|].
  revert E. match goal with |- foldM ?g _ _ = _ -> _ => set (f := g) end. intros E.
  apply (chain_some f (fun _ => (0 < q_h q)%R) (range 3)) with (s := Some 0%R) (y := x) (x := 0); [| | exact E | apply in_range; lia].
  - intros j o H. unfold f in H. apply bind_ok in H as (f0 & _ & H). apply bind_ok in H as (n & _ & H). apply bind_ok in H as (m & _ & H). apply bind_ok in H as (v & _ & H). cbv zeta in H. injection H as <-. destruct (_ && _); reflexivity.
  - intros s j s' H. unfold f in H. apply bind_ok in H as (f0 & _ & H). apply bind_ok in H as (n & _ & H). apply bind_ok in H as (m & _ & H). apply bind_ok in H as (v & _ & H). cbv zeta in H.
    destruct (nonneg [q_h q] && nonzero [q_h q; m; v]) eqn:EB; [|discriminate H]. apply andb_true_iff in EB as (B1 & B2). pose proof (Proofs_sw8.nonneg_in _ (q_h q) B1 (or_introl eq_refl)). pose proof (Proofs_sw8.nonzero_in _ (q_h q) B2 (or_introl eq_refl)). lra.
Qed.
Lemma dt_wet w cfl normal mesure volume faceid Dx Dy x : time_step_SW w cfl normal mesure volume faceid Dx Dy = Ok (Some x) -> forall i, 0 <= i < zlen faceid -> exists q, get w i = Ok q /\ (0 < q_h q)%R.
Proof.
  intros E i Hi. unfold time_step_SW in E. revert E. match goal with |- foldM ?g _ _ = _ -> _ => set (f := g) end. intros E.
  apply (chain_some f (fun i => exists q, get w i = Ok q /\ (0 < q_h q)%R) (range (zlen faceid))) with (s := Some 1000000%R) (y := x); [| | exact E | apply in_range; lia].
  - intros j o H. unfold f in H. apply bind_ok in H as (l & _ & H). apply bind_ok in H as (v & _ & H). injection H as <-. reflexivity.
  - intros s j s' H. unfold f in H. apply bind_ok in H as (l & El & H). apply bind_ok in H as (v & _ & H). destruct l as [y|]; [exact (lam_wet _ _ _ _ _ _ _ _ _ El)|]. destruct s; discriminate H.
Qed.
Lemma min_some l x : allreduce_min l = Some x -> forall o, In o l -> o <> None.
Proof.
  destruct l as [|a l]; [discriminate|]. cbn [allreduce_min]. revert a. induction l as [|b l IH]; intros a E o Ho.
  - cbn in E. destruct Ho as [<-|[]]. subst a. discriminate.
  - cbn [fold_left] in E. destruct Ho as [<-|[<-|Ho]].
    + intros ->. exact (IH (omin None b) E _ (or_introl eq_refl) eq_refl).
    + intros ->. apply (IH (omin a None) E _ (or_introl eq_refl)). destruct a; reflexivity.
    + exact (IH _ E o (or_intror Ho)).
Qed.

Section Ranks22.
Context (SIZE : Z) (cells : list (list Z)) (nodes : list pt) (labels npart0 epart : list Z) (st : setting).
Hypothesis VM : valid_mesh 2 cells nodes labels.
Hypothesis PL : planar nodes.
Hypothesis VS : valid_split 2 SIZE cells nodes npart0 epart.
Notation Ds := (se_domains st).
Notation Dr := (domain_of (se_domains st)).
Hypothesis RP : represents 2 SIZE cells nodes labels epart Ds.
Hypothesis SC : star_connected 2 cells.
Hypothesis CS : forall r, 0 <= r < SIZE -> consistent 2 (Dr r).
Hypothesis HX : 1 < SIZE -> forall (V : Type) (d : V) (X : Z -> V) (w : list (list V)), values_of d SIZE Ds X w -> exists halo, update_halo_value SIZE (se_comms st) w = Ok halo /\ halo_values_of d SIZE Ds X halo.
Hypothesis SP : spanned 2 cells nodes.
Notation PAr := (rp_part _ _ _ _ _ _ _ RP).
Notation holds := (holds SIZE st).
Notation shows := (shows 2 SIZE cells nodes labels st).
Notation sizes := (Proofs_run5.sizes 2 SIZE cells nodes labels epart st RP).
Notation size1 := (size11 2 SIZE cells nodes npart0 epart VS).
Notation dom r Hr := (dom11 2 SIZE cells nodes labels epart st RP r Hr).
Notation distinct r Hr := (distinct11 2 SIZE cells nodes labels epart st RP CS r Hr).

(** what the arrays of rank r show of the field X *)
Record fsees (bc : list (loc * bctype)) (vs : list (loc * bcval)) (r : Z) (X : Z -> R) (W : values) : Prop := {
  fs_len : zlen (w_c W) = zlen (dm_center (Dr r)) /\ zlen (w_ghost W) = zlen (dm_cellid (Dr r)) /\ zlen (w_halo W) = zlen (dm_centerh (Dr r));
  fs_cell : forall c, iscell_of (Dr r) c -> nthZ 0%R (w_c W) c = X (gcell (Dr r) c);
  fs_halo : forall h, ishalo_of (Dr r) h -> nthZ 0%R (w_halo W) h = X (ghalo (Dr r) h);
  fs_ghost : forall f c, only_cell 2 cells c (fset (Dr r) f) -> isface (Dr r) f -> gcell (Dr r) (left_of (Dr r) f) = c -> nthZ 0%R (w_ghost W) f = flow_value nodes labels bc vs (fset (Dr r) f) (X c) }.
Definition fshows (bc : list (loc * bctype)) (vs : list (loc * bcval)) (X : Z -> R) (l : list variable) : Prop :=
  holds bc vs X l /\ forall r, 0 <= r < SIZE -> exists v W, get l r = Ok v /\ arrays v = Ok W /\ fsees bc vs r X W.
Definition readable (bc : list (loc * bctype)) : Prop := forall r, 0 <= r < SIZE -> nonslip_readable (dom_bc (Dr r)) bc.

Lemma free_flow_value F x : flow_value nodes labels free [] F x = x.
Proof.
  unfold flow_value. rewrite free_value. destruct (find _ free) as [(l & t)|] eqn:E; [|reflexivity]. apply find_some in E as (H & _). apply free_in in H as (_ & ->). reflexivity.
Qed.
Lemma shows_flow X l : shows free [] X l -> fshows free [] X l.
Proof.
  intros H. split; [exact (shows_holds _ _ _ _ _ _ _ _ X l H)|]. destruct H as (ws & L & V & H). intros r Hr. destruct (H r Hr) as (v & W & Ev & F & EA & SE). exists v, W. split; [exact Ev|]. split; [exact EA|].
  destruct SE as [(A1 & A2 & A3 & _) B C G _]. constructor; [auto | exact B | exact C|]. intros f c HO If EC. rewrite (G f c HO If EC), free_value, free_flow_value. reflexivity.
Qed.
Lemma update_values_flow bc vs X l : flow_bc bc vs -> readable bc -> holds bc vs X l -> exists l', update_values SIZE st l = Ok l' /\ fshows bc vs X l'.
Proof.
  intros FB RB HH. pose proof size1 as S1. destruct (holds_cells 2 SIZE cells nodes npart0 epart st VS bc vs X l HH) as (ws0 & EC & HV0). destruct HH as (ws & LN & HV & HN). unfold update_values. rewrite EC. cbn [bind].
  destruct (exchange_ok 2 SIZE cells nodes labels npart0 epart st VS RP HX 0%R X ws0 HV0) as (halo & EH & LH & HHl). rewrite EH. cbn [bind].
  destruct (mapM_ranks (fun r => do D <- get Ds r; do v <- get l r; do h <- get halo r; do v <- write_array v r_halo h; update_ghost_value (dom_bc D) v)
    (fun r v => exists W, vfull (dom_bc (Dr r)) bc vs (nthZ [] ws r) v /\ arrays v = Ok W /\ fsees bc vs r X W) SIZE ltac:(lia)) as (m & E & LL & HL).
  - intros r Hr. rewrite (dom r Hr). cbn [bind]. destruct (HN r Hr) as (v & Ev & VI). rewrite Ev. cbn [bind]. rewrite (get_nthZ []) by lia. cbn [bind]. destruct (HHl r Hr) as (HL & HVl).
    pose proof (settings_flow cells nodes labels epart r (Dr r) (PAr r Hr) (CS r Hr) bc vs FB (RB r Hr)) as SO. pose proof (distinct r Hr) as DI. pose proof (cs_bc _ _ (CS r Hr)) as WB. destruct (wb_size _ WB) as (Z1 & Z2 & Z3 & Z4). destruct (sizes r Hr) as (SZ1 & SZ2).
    assert (H9 := full_heap _ _ _ _ _ VI).
    destruct (full_write (dom_bc (Dr r)) bc vs _ v r_halo (nthZ [] halo r) VI) as (v1 & E1 & F1 & U1); [unfold r_halo; lia | rewrite HL; change (nthZ [] (vs_heap (init_state (dom_bc (Dr r)))) r_halo) with (zeros_like 0%R (bd_nbhalos (dom_bc (Dr r)))); rewrite zlen_zeros_like by exact Z3; cbn [dom_bc bd_nbhalos]; lia|].
    rewrite E1. cbn [bind]. change (r_halo =? 0) with false in F1. cbv iota in F1. destruct (full_update (dom_bc (Dr r)) bc vs WB DI SO _ v1 F1) as (v2 & E2 & F2 & H2 & G2 & HG2). exists v2. split; [exact E2|].
    eexists. split; [exact F2|]. split; [exact (full_arrays st bc vs r _ _ F2)|]. destruct HV as (LW & HVr). destruct (HVr r Hr) as (LWr & HWr). assert (EH1 : nthZ [] (va_heap v1) 2 = nthZ [] halo r) by (rewrite U1; unfold r_halo; apply nthZ_upd_eq; lia). rewrite EH1 in HG2.
    assert (LWc : zlen (nthZ [] ws r) = zlen (dm_center (Dr r))) by (rewrite SZ1; exact LWr).
    constructor.
    + cbn [w_c w_ghost w_halo]. split; [exact LWc|]. split; [rewrite (proj1 G2); symmetry; exact (proj1 (proj2 (wb_len _ WB)))|]. rewrite H2, EH1. lia.
    + exact HWr.
    + cbn [w_halo]. rewrite H2, EH1. exact HVl.
    + cbn [w_ghost]. exact (ghost_flow cells nodes labels epart r (Dr r) (PAr r Hr) (CS r Hr) bc vs _ _ _ X FB LWc HWr G2).
  - exists m. split; [exact E|]. split.
    + exists ws. split; [exact LL|]. split; [exact HV|]. intros r Hr. destruct (HL r Hr) as (v & Ev & _ & W & H & _). exists v. split; [exact Ev | exact H].
    + intros r Hr. destruct (HL r Hr) as (v & Ev & _ & W & _ & H). exists v, W. split; [exact Ev | exact H].
Qed.
Lemma write_each_ok bc vs X Y l ws : holds bc vs X l -> values_of 0%R SIZE Ds Y ws -> exists l', write_each SIZE l ws = Ok l' /\ holds bc vs Y l'.
Proof.
  intros (ws0 & LN & HV0 & HN) HV. pose proof size1 as S1. unfold write_each.
  destruct (mapM_ranks (fun r => do v <- get l r; do w <- get ws r; write_array v (va_cell v) w) (fun r v => vfull (dom_bc (Dr r)) bc vs (nthZ [] ws r) v) SIZE ltac:(lia)) as (m & E & LL & HL).
  - intros r Hr. destruct (HN r Hr) as (v & Ev & F). rewrite Ev. cbn [bind]. destruct HV as (LW & HV). destruct (HV r Hr) as (LWr & _). rewrite (get_nthZ []) by lia. cbn [bind]. rewrite (full_ref _ _ _ _ _ F).
    destruct (wb_size _ (cs_bc _ _ (CS r Hr))) as (Z1 & _).
    destruct (full_write (dom_bc (Dr r)) bc vs _ v 0 (nthZ [] ws r) F) as (v1 & E1 & F1 & _); [lia | |exists v1; split; [exact E1 | exact F1]].
    change (nthZ [] (vs_heap (init_state (dom_bc (Dr r)))) 0) with (zeros_like 0%R (bd_nbcells (dom_bc (Dr r)))). rewrite zlen_zeros_like by exact Z1. cbn [dom_bc bd_nbcells]. rewrite (proj1 (sizes r Hr)). exact LWr.
  - exists m. split; [exact E|]. exists ws. split; [exact LL|]. split; [exact HV|]. intros r Hr. destruct (HL r Hr) as (v & Ev & _ & H). exists v. auto.
Qed.
(** creation *)
Lemma variable_ok o bc vs X w0 : (o = Some (bc, vs) \/ o = None /\ bc = free /\ vs = []) -> flow_bc bc vs -> readable bc -> values_of 0%R SIZE Ds X w0 -> exists l, sw_variable o SIZE st w0 = Ok l /\ holds bc vs X l.
Proof.
  intros HO FB RB HV. pose proof size1 as S1. pose proof HV as (LW & HV'). unfold sw_variable.
  destruct (mapM_ranks (fun r => do D <- get Ds r; do w <- get w0 r; do v <- new_variable (dom_bc D) (option_map fst o) (option_map snd o); write_array v (va_cell v) w)
    (fun r v => vfull (dom_bc (Dr r)) bc vs (nthZ [] w0 r) v) SIZE ltac:(lia)) as (m & E & LL & HL).
  - intros r Hr. rewrite (dom r Hr). cbn [bind]. rewrite (get_nthZ []) by lia. cbn [bind]. pose proof (cs_bc _ _ (CS r Hr)) as WB.
    destruct (full_new (dom_bc (Dr r)) bc vs WB (distinct r Hr) (settings_flow cells nodes labels epart r (Dr r) (PAr r Hr) (CS r Hr) bc vs FB (RB r Hr))) as (v & Ev & FV).
    assert (EN : new_variable (dom_bc (Dr r)) (option_map fst o) (option_map snd o) = Ok v).
    { destruct HO as [-> | (-> & -> & ->)]; cbn [option_map fst snd]; [exact Ev|]. rewrite (default_free cells nodes labels epart r (Dr r) (PAr r Hr) (CS r Hr)). exact Ev. }
    rewrite EN. cbn [bind]. rewrite (full_ref _ _ _ _ _ FV). destruct (wb_size _ WB) as (Q & _).
    destruct (full_write (dom_bc (Dr r)) bc vs _ v 0 (nthZ [] w0 r) FV) as (v' & EW & FV' & _); [lia | change (nthZ [] (vs_heap (init_state (dom_bc (Dr r)))) 0) with (zeros_like 0%R (bd_nbcells (dom_bc (Dr r)))); rewrite zlen_zeros_like by exact Q; cbn [dom_bc bd_nbcells]; rewrite (proj1 (HV' r Hr)); symmetry; apply sizes; exact Hr|].
    exists v'. split; [exact EW | exact FV'].
  - exists m. split; [exact E|]. exists w0. split; [exact LL|]. split; [exact HV|]. intros r Hr. destruct (HL r Hr) as (v & Ev & _ & H). exists v. auto.
Qed.

(** *** The state *)
Context (B : flow).
Hypothesis FU : flow_bc (fl_ubc B) (fl_uvs B).
Hypothesis FV : flow_bc (fl_vbc B) (fl_vvs B).
Hypothesis RU : readable (fl_ubc B).
Hypothesis RV : readable (fl_vbc B).
Record five (W : Z -> q5) (s : sw_held) : Prop := {
  f_h : holds free [] (fun c => q_h (W c)) (sh_h s); f_hu : holds (fl_ubc B) (fl_uvs B) (fun c => q_hu (W c)) (sh_hu s); f_hv : holds (fl_vbc B) (fl_vvs B) (fun c => q_hv (W c)) (sh_hv s);
  f_hc : holds free [] (fun c => q_hc (W c)) (sh_hc s); f_Z : holds free [] (fun c => q_Z (W c)) (sh_Z s) }.
Record five_shown (W : Z -> q5) (s : sw_held) : Prop := {
  fs_h : fshows free [] (fun c => q_h (W c)) (sh_h s); fs_hu : fshows (fl_ubc B) (fl_uvs B) (fun c => q_hu (W c)) (sh_hu s); fs_hv : fshows (fl_vbc B) (fl_vvs B) (fun c => q_hv (W c)) (sh_hv s);
  fs_hc : fshows free [] (fun c => q_hc (W c)) (sh_hc s); fs_Z : fshows free [] (fun c => q_Z (W c)) (sh_Z s) }.
Lemma shown_five W s : five_shown W s -> five W s.
Proof. intros [A1 A2 A3 A4 A5]. constructor; [exact (proj1 A1) | exact (proj1 A2) | exact (proj1 A3) | exact (proj1 A4) | exact (proj1 A5)]. Qed.
Lemma holds_at bc vs X l r : 0 <= r < SIZE -> holds bc vs X l -> exists v w, get l r = Ok v /\ cell_of v = Ok w /\ zlen w = zlen (dm_loctoglob (Dr r)) /\ forall c, iscell_of (Dr r) c -> nthZ 0%R w c = X (gcell (Dr r) c).
Proof. intros Hr (ws & L & (LW & V) & H). destruct (H r Hr) as (v & Ev & F). destruct (V r Hr) as (V1 & V2). exists v, (nthZ [] ws r). split; [exact Ev|]. split; [exact (full_cell _ _ _ _ _ F)|]. auto. Qed.
Lemma held_cells_ok W s r : 0 <= r < SIZE -> five W s -> exists w, held_cells s r = Ok w /\ zlen w = zlen (dm_loctoglob (Dr r)) /\ forall c, iscell_of (Dr r) c -> nthZ q5_zero w c = W (gcell (Dr r) c).
Proof.
  intros Hr [A1 A2 A3 A4 A5]. unfold held_cells.
  destruct (holds_at _ _ _ _ r Hr A1) as (v1 & h & E1 & C1 & L1 & X1). destruct (holds_at _ _ _ _ r Hr A2) as (v2 & hu & E2 & C2 & L2 & X2). destruct (holds_at _ _ _ _ r Hr A3) as (v3 & hv & E3 & C3 & L3 & X3).
  destruct (holds_at _ _ _ _ r Hr A4) as (v4 & hc & E4 & C4 & L4 & X4). destruct (holds_at _ _ _ _ r Hr A5) as (v5 & z & E5 & C5 & L5 & X5).
  rewrite E1. cbn [bind]. rewrite C1. cbn [bind]. rewrite E2. cbn [bind]. rewrite C2. cbn [bind]. rewrite E3. cbn [bind]. rewrite C3. cbn [bind]. rewrite E4. cbn [bind]. rewrite C4. cbn [bind]. rewrite E5. cbn [bind]. rewrite C5. cbn [bind].
  eexists. split; [reflexivity|]. rewrite together_len. split; [exact L1|]. intros c Hc. rewrite together_at by (unfold iscell_of in Hc; lia). rewrite (X1 c Hc), (X2 c Hc), (X3 c Hc), (X4 c Hc), (X5 c Hc). apply q5_eta.
Qed.
Notation slopes_of := (slopes_of SIZE st).
Lemma held_data_ok W s Sl P0 Tl Ps r : 0 <= r < SIZE -> five_shown W s -> slopes_of Sl P0 (sh_gh s) -> slopes_of Tl Ps (sh_gc s) ->
  exists A, held_data s r = Ok A /\ Spec_sw.wf_swdata (dom_fv (Dr r)) (dm_mesure (Dr r)) A /\
  (forall c, iscell_of (Dr r) c -> nthZ q5_zero (sw_c A) c = W (gcell (Dr r) c) /\ nthZ vzero (sw_gradh A) c = Sl (gcell (Dr r) c) /\ nthZ vzero (sw_gradc A) c = Tl (gcell (Dr r) c) /\ nthZ 0%R (sw_psi A) c = Ps (gcell (Dr r) c)) /\
  (forall h, ishalo_of (Dr r) h -> nthZ q5_zero (sw_halo A) h = W (ghalo (Dr r) h) /\ nthZ vzero (sw_gradhh A) h = Sl (ghalo (Dr r) h) /\ nthZ vzero (sw_gradch A) h = Tl (ghalo (Dr r) h) /\ nthZ 0%R (sw_psih A) h = Ps (ghalo (Dr r) h)) /\
  (forall f c, only_cell 2 cells c (fset (Dr r) f) -> isface (Dr r) f -> gcell (Dr r) (left_of (Dr r) f) = c -> nthZ q5_zero (sw_ghost A) f = outside cells nodes labels B W c (fset (Dr r) f)).
Proof.
  intros Hr [A1 A2 A3 A4 A5] (_ & GH) (_ & GC). unfold held_data.
  destruct (proj2 A1 r Hr) as (v1 & h & E1 & C1 & X1). destruct (proj2 A2 r Hr) as (v2 & hu & E2 & C2 & X2). destruct (proj2 A3 r Hr) as (v3 & hv & E3 & C3 & X3).
  destruct (proj2 A4 r Hr) as (v4 & hc & E4 & C4 & X4). destruct (proj2 A5 r Hr) as (v5 & z & E5 & C5 & X5). destruct (GH r Hr) as (gh & EG & LG & VG & HGh). destruct (GC r Hr) as (gc & EC & LC & VC & HGc).
  rewrite E1. cbn [bind]. rewrite C1. cbn [bind]. rewrite E2. cbn [bind]. rewrite C2. cbn [bind]. rewrite E3. cbn [bind]. rewrite C3. cbn [bind]. rewrite E4. cbn [bind]. rewrite C4. cbn [bind]. rewrite E5. cbn [bind]. rewrite C5. cbn [bind]. rewrite EG. cbn [bind]. rewrite EC. cbn [bind].
  destruct (sizes r Hr) as (S1 & S2). destruct LG as (M1 & M2 & M3 & M4). destruct LC as (K1 & K2 & K3 & K4). pose proof (fs_len _ _ _ _ _ X1) as (Q1 & Q2 & Q3).
  eexists. split; [reflexivity|]. split; [|split; [|split]].
  - constructor; cbn [sw_c sw_gradh sw_gradc sw_psi sw_halo sw_gradhh sw_gradch sw_psih sw_ghost dom_fv fv_centerc fv_centerh fv_cellid]; rewrite ?together_len.
    + split; [lia|]. split; [lia|]. split; lia.
    + split; [lia|]. split; [lia|]. split; lia.
    + split; [exact Q2|]. destruct (wt_len _ _ _ _ _ _ (cs_timestep _ _ (CS r Hr) (zeros_like p0 (zlen (dm_center (Dr r)))) (zlen_zeros_like _ _ (zlen_nonneg _)))) as (_ & _ & LM). destruct (faces_count 2 cells nodes labels epart r (Dr r) (PAr r Hr) (CS r Hr)) as (_ & F1 & F2). lia.
  - intros c Hc. cbn [sw_c sw_gradh sw_gradc sw_psi]. rewrite together_at by (unfold iscell_of in Hc; lia). rewrite (fs_cell _ _ _ _ _ X1 c Hc), (fs_cell _ _ _ _ _ X2 c Hc), (fs_cell _ _ _ _ _ X3 c Hc), (fs_cell _ _ _ _ _ X4 c Hc), (fs_cell _ _ _ _ _ X5 c Hc).
    split; [apply q5_eta|]. split; [apply VG, Hc|]. apply VC, Hc.
  - intros c Hc. cbn [sw_halo sw_gradhh sw_gradch sw_psih]. rewrite together_at by (unfold ishalo_of in Hc; lia). rewrite (fs_halo _ _ _ _ _ X1 c Hc), (fs_halo _ _ _ _ _ X2 c Hc), (fs_halo _ _ _ _ _ X3 c Hc), (fs_halo _ _ _ _ _ X4 c Hc), (fs_halo _ _ _ _ _ X5 c Hc).
    split; [apply q5_eta|]. split; [apply HGh, Hc|]. apply HGc, Hc.
  - intros f c HO If EC'. cbn [sw_ghost]. rewrite together_at by (rewrite Q2; destruct (faces_count 2 cells nodes labels epart r (Dr r) (PAr r Hr) (CS r Hr)) as (_ & _ & FC); unfold isface in If; lia).
    rewrite (fs_ghost _ _ _ _ _ X1 f c HO If EC'), (fs_ghost _ _ _ _ _ X2 f c HO If EC'), (fs_ghost _ _ _ _ _ X3 f c HO If EC'), (fs_ghost _ _ _ _ _ X4 f c HO If EC'), (fs_ghost _ _ _ _ _ X5 f c HO If EC'), !free_flow_value.
    unfold outside. rewrite (proj2 (beside_none 2 cells nodes (vm_mesh _ _ _ _ VM) (vm_proper _ _ _ _ VM) c (fset (Dr r) f) (proj1 HO)) HO). reflexivity.
Qed.

(** *** Friction *)
Context (co : swcoef).
Notation E := {| fe_Dx := co_Dx co; fe_Dy := co_Dy co; fe_Mann := co_Mann co; fe_fc := co_fc co |}.
Lemma cells_of_ranks : forall c, iscell cells c -> exists r a, 0 <= r < SIZE /\ iscell_of (Dr r) a /\ gcell (Dr r) a = c.
Proof. intros c Hc. exact (rank_of 2 SIZE cells nodes labels npart0 epart st VS RP c Hc). Qed.
Lemma gcell_cell r c : 0 <= r < SIZE -> iscell_of (Dr r) c -> iscell cells (gcell (Dr r) c).
Proof. intros Hr Hc. exact (proj1 (gcell_owned 2 cells nodes labels epart r (Dr r) (PAr r Hr) c Hc)). Qed.
Lemma friction_sound dt W s s' : five W s -> sw_friction co dt SIZE st s = Ok s' -> forall c, iscell cells c -> (0 < q_h (W c))%R /\ friction_factor E dt (W c) <> 0%R.
Proof.
  intros F H c Hc. unfold sw_friction in H. apply bind_ok in H as (w1 & H & _). destruct (cells_of_ranks c Hc) as (r & a & Hr & Ha & <-).
  assert (HR := mapM_nthZ _ _ _ 0 [] r H). rewrite nthZ_range, zlen_range in HR by (pose proof size1; lia). specialize (HR ltac:(lia)).
  destruct (held_cells_ok W s r Hr F) as (w & Ew & Lw & Vw). rewrite Ew in HR. cbn [bind] in HR. destruct (all_some _) as [x|] eqn:EA; [|discriminate HR]. apply Proofs_sw8.all_some_inv in EA.
  assert (La : 0 <= a < zlen w) by (unfold iscell_of in Ha; lia).
  assert (X : nthZ None (term_friction_SW w g981 (co_Mann co) dt) a = friction_cell (W (gcell (Dr r) a)) g981 (co_Mann co) dt) by (unfold term_friction_SW; rewrite (nthZ_map _ q5_zero) by exact La; rewrite (Vw a Ha); reflexivity).
  assert (LX : zlen x = zlen w) by (apply (f_equal zlen) in EA; unfold term_friction_SW in EA; rewrite !zlen_map in EA; lia).
  rewrite EA, (nthZ_map _ q5_zero) in X by lia. symmetry in X. exact (friction_inv E dt _ (co_Mann co) _ eq_refl X).
Qed.
Lemma field_values (Y : Z -> q5) ws (k : q5 -> R) : values_of q5_zero SIZE Ds Y ws -> values_of 0%R SIZE Ds (fun c => k (Y c)) (map (map k) ws).
Proof. intros HV. exact (values_map SIZE st q5_zero 0%R k Y ws HV). Qed.
Lemma values_ranks {V} (d : V) Y (f : Z -> res (list V)) : (forall r, 0 <= r < SIZE -> exists w, f r = Ok w /\ zlen w = zlen (dm_loctoglob (Dr r)) /\ forall c, iscell_of (Dr r) c -> nthZ d w c = Y (gcell (Dr r) c)) ->
  exists ws, mapM f (range SIZE) = Ok ws /\ values_of d SIZE Ds Y ws.
Proof.
  intros H. pose proof size1 as S1. destruct (mapM_range_ex [] f (fun r w => zlen w = zlen (dm_loctoglob (Dr r)) /\ forall c, iscell_of (Dr r) c -> nthZ d w c = Y (gcell (Dr r) c)) SIZE ltac:(lia) H) as (ws & E0 & L & Q).
  exists ws. split; [exact E0|]. split; [exact L | exact Q].
Qed.
Lemma friction_ranks dt W s : five W s -> (forall c, iscell cells c -> (0 < q_h (W c))%R /\ friction_factor E dt (W c) <> 0%R) ->
  exists s', sw_friction co dt SIZE st s = Ok s' /\ five (fun c => slowed E dt (W c)) s' /\ fshows (fl_ubc B) (fl_uvs B) (fun c => q_hu (slowed E dt (W c))) (sh_hu s') /\ fshows (fl_vbc B) (fl_vvs B) (fun c => q_hv (slowed E dt (W c))) (sh_hv s') /\
    sh_h s' = sh_h s /\ sh_hc s' = sh_hc s /\ sh_Z s' = sh_Z s /\ sh_gh s' = sh_gh s /\ sh_gc s' = sh_gc s /\ sh_face s' = sh_face s.
Proof.
  intros F WET. unfold sw_friction.
  destruct (values_ranks q5_zero (fun c => slowed E dt (W c)) (fun r => do w <- held_cells s r; match all_some (term_friction_SW w g981 (co_Mann co) dt) with None => Err ValueError | Some w1 => ret w1 end)) as (w1 & E1 & V1).
  { intros r Hr. destruct (held_cells_ok W s r Hr F) as (w & Ew & Lw & Vw). rewrite Ew. cbn [bind]. exists (map (slowed E dt) w).
    assert (ET : term_friction_SW w g981 (co_Mann co) dt = map Some (map (slowed E dt) w)).
    { unfold term_friction_SW. rewrite map_map. apply map_ext_in. intros x Hx. destruct (In_nthZ q5_zero _ _ Hx) as (a & Ha & <-). assert (Ia : iscell_of (Dr r) a) by (unfold iscell_of; lia). rewrite (Vw a Ia).
      destruct (WET (gcell (Dr r) a) (gcell_cell r a Hr Ia)) as (W1 & W2). exact (friction_some E dt _ (co_Mann co) eq_refl W1 W2). }
    rewrite ET, all_some_map. split; [reflexivity|]. rewrite zlen_map. split; [exact Lw|]. intros c Hc. rewrite (nthZ_map _ q5_zero) by (unfold iscell_of in Hc; lia). rewrite (Vw c Hc). reflexivity. }
  rewrite E1. cbn [bind]. destruct F as [A1 A2 A3 A4 A5].
  destruct (write_each_ok _ _ _ _ _ _ A2 (field_values _ w1 q_hu V1)) as (hu & E2 & H2). rewrite E2. cbn [bind]. destruct (write_each_ok _ _ _ _ _ _ A3 (field_values _ w1 q_hv V1)) as (hv & E3 & H3). rewrite E3. cbn [bind].
  destruct (update_values_flow _ _ _ _ FU RU H2) as (hu' & E4 & H4). rewrite E4. cbn [bind]. destruct (update_values_flow _ _ _ _ FV RV H3) as (hv' & E5 & H5). rewrite E5. cbn [bind].
  eexists. split; [reflexivity|]. cbn [sh_h sh_hu sh_hv sh_hc sh_Z sh_gh sh_gc sh_face]. split; [constructor; cbn [sh_h sh_hu sh_hv sh_hc sh_Z slowed q_h q_hc q_Z]; [exact A1 | exact (proj1 H4) | exact (proj1 H5) | exact A4 | exact A5]|].
  split; [exact H4|]. split; [exact H5|]. auto 10.
Qed.

(** *** The time step *)
Context (cfl : R).
Hypothesis HCFL : (0 < cfl)%R.
Hypothesis HD : (0 <= co_Dx co + co_Dy co)%R.
Lemma wave_rank r w W c : 0 <= r < SIZE -> (forall c, iscell_of (Dr r) c -> nthZ q5_zero w c = W (gcell (Dr r) c)) -> iscell_of (Dr r) c ->
  Spec_sw.sw_wave_speed w (dm_normal (Dr r)) (dm_mesure (Dr r)) (dm_volume (Dr r)) (dm_faceid (Dr r)) (co_Dx co) (co_Dy co) c = wave_speed cells nodes E (W (gcell (Dr r) c)) (gcell (Dr r) c).
Proof.
  intros Hr Vw Hc. unfold Spec_sw.sw_wave_speed, wave_speed. cbv zeta. rewrite (Vw c Hc). pose proof (PAr r Hr) as PA.
  rewrite <- (rsum_perm _ _ (Permutation_map _ (fset_row 2 cells nodes labels epart r (Dr r) VM PA (CS r Hr) c Hc))). rewrite map_map. apply rsum_map_ext. intros f Hf. cbn [fe_Dx fe_Dy].
  destruct (face_view 2 cells nodes labels epart r (Dr r) VM PA (CS r Hr) c f Hc Hf) as (If & HF & GF & _). destruct (pa_geometry _ _ _ _ _ _ _ PA f _ GF) as (_ & EM & _). rewrite EM.
  assert (EV : nthZ 0%R (dm_volume (Dr r)) c = measure_of cells nodes (gcell (Dr r) c)) by (apply (pa_cell _ _ _ _ _ _ _ PA c Hc)). rewrite EV.
  pose proof (outward_flat cells nodes labels _ _ VM HF) as FL. set (n := outward cells nodes (gcell (Dr r) c) (fset (Dr r) f)) in *.
  destruct (normal_sign 2 cells nodes labels epart r (Dr r) VM PA (CS r Hr) c f Hc Hf) as [-> | ->]; fold n; unfold vlen.
  - replace (vdot n n) with (px n ^ 2 + py n ^ 2)%R by (unfold vdot; rewrite FL; ring). reflexivity.
  - replace (vdot (vscal (-1) n) (vscal (-1) n)) with (vdot n n) by (unfold vdot, vscal; cbn [px py pz]; ring). unfold vscal at 1 2 3 4. cbn [px py].
    replace (q_hu (W (gcell (Dr r) c)) / q_h (W (gcell (Dr r) c)) * (-1 * px n) + q_hv (W (gcell (Dr r) c)) / q_h (W (gcell (Dr r) c)) * (-1 * py n))%R with
      (- (q_hu (W (gcell (Dr r) c)) / q_h (W (gcell (Dr r) c)) * px n + q_hv (W (gcell (Dr r) c)) / q_h (W (gcell (Dr r) c)) * py n))%R by ring. rewrite Rabs_Ropp.
    replace ((-1 * px n) ^ 2 + (-1 * py n) ^ 2)%R with (vdot n n) by (unfold vdot; rewrite FL; ring). reflexivity.
Qed.
Lemma time_sound W s dt : five W s -> sw_time_step co cfl SIZE st s = Ok dt -> forall c, iscell cells c -> (0 < q_h (W c))%R.
Proof.
  intros F H c Hc. unfold sw_time_step in H. apply bind_ok in H as (dts & H & HM). destruct (allreduce_min dts) as [d|] eqn:EM; [|discriminate HM]. destruct (cells_of_ranks c Hc) as (r & a & Hr & Ha & <-).
  assert (LD := mapM_zlen _ _ _ H). rewrite zlen_range in LD by (pose proof size1; lia).
  assert (HR := mapM_nthZ _ _ _ 0 None r H). rewrite nthZ_range, zlen_range in HR by (pose proof size1; lia). specialize (HR ltac:(lia)). rewrite (dom r Hr) in HR. cbn [bind] in HR.
  destruct (held_cells_ok W s r Hr F) as (w & Ew & Lw & Vw). rewrite Ew in HR. cbn [bind] in HR.
  pose proof (min_some _ _ EM (nthZ None dts r) ltac:(apply nthZ_In; lia)) as NN. destruct (nthZ None dts r) as [x|]; [|congruence].
  destruct (pa_sizes _ _ _ _ _ _ _ (PAr r Hr)) as (_ & _ & _ & SF & _). pose proof Ha as Ha'. unfold iscell_of in Ha'. destruct (dt_wet _ _ _ _ _ _ _ _ _ HR a ltac:(lia)) as (q & Eq & Hq). rewrite (get_nthZ q5_zero) in Eq by lia. injection Eq as <-. rewrite (Vw a Ha) in Hq. exact Hq.
Qed.
Lemma wave_nonneg w c : iscell cells c -> (0 <= wave_speed cells nodes E w c)%R.
Proof.
  intros Hc. unfold wave_speed. apply rsum_map_nonneg. intros F HF. cbv zeta. cbn [fe_Dx fe_Dy]. set (n := outward cells nodes c F).
  pose proof (Rabs_pos (q_hu w / q_h w * px n + q_hv w / q_h w * py n)). assert (0 <= sqrt (g981 * q_h w) * sqrt (vdot n n))%R by (apply Rmult_le_pos; apply sqrt_pos).
  assert (0 <= (co_Dx co + co_Dy co) * vdot n n / measure_of cells nodes c)%R; [|lra]. destruct (cells_of_ranks c Hc) as (r & a & Hr & Ha & <-). pose proof (pa_cell _ _ _ _ _ _ _ (PAr r Hr) a Ha) as (_ & _ & MV & MP).
  fold (measure_of cells nodes (gcell (Dr r) a)) in MV. apply Rmult_le_pos; [|left; apply Rinv_0_lt_compat; rewrite <- MV; exact MP]. apply Rmult_le_pos; [exact HD|]. unfold vdot. pose proof (Rle_0_sqr (px n)). pose proof (Rle_0_sqr (py n)). pose proof (Rle_0_sqr (pz n)). unfold Rsqr in *. lra.
Qed.
Lemma time_ok W s : five W s -> (forall c, iscell cells c -> (0 < q_h (W c))%R) -> exists dt, sw_time_step co cfl SIZE st s = Ok dt /\ (0 < dt)%R /\ longest cells nodes E cfl W dt.
Proof.
  intros F WET. pose proof size1 as S1. unfold sw_time_step.
  destruct (mapM_range_ex None (fun r => do D <- get Ds r; do w <- held_cells s r; time_step_SW w cfl (dm_normal D) (dm_mesure D) (dm_volume D) (dm_faceid D) (co_Dx co) (co_Dy co))
    (fun r o => exists dt, o = Some dt /\ (0 < dt <= 1000000)%R /\
     (forall c, iscell_of (Dr r) c -> dt * wave_speed cells nodes E (W (gcell (Dr r) c)) (gcell (Dr r) c) <= cfl * measure_of cells nodes (gcell (Dr r) c))%R /\
     (dt = 1000000%R \/ exists c, iscell_of (Dr r) c /\ (0 < wave_speed cells nodes E (W (gcell (Dr r) c)) (gcell (Dr r) c))%R /\ (dt * wave_speed cells nodes E (W (gcell (Dr r) c)) (gcell (Dr r) c) = cfl * measure_of cells nodes (gcell (Dr r) c))%R))
    SIZE ltac:(lia)) as (dts & ED & LD & HDt).
  { intros r Hr. rewrite (dom r Hr). cbn [bind]. destruct (held_cells_ok W s r Hr F) as (w & Ew & Lw & Vw). rewrite Ew. cbn [bind].
    pose proof (cs_timestep _ _ (CS r Hr) (zeros_like p0 (zlen (dm_center (Dr r)))) (zlen_zeros_like _ _ (zlen_nonneg _))) as WT. destruct (pa_sizes _ _ _ _ _ _ _ (PAr r Hr)) as (_ & S2 & S3 & SF & _).
    destruct (wt_len _ _ _ _ _ _ WT) as (_ & L2 & L3).
    assert (WS : Spec_sw.wf_sw_timestep w (dm_normal (Dr r)) (dm_mesure (Dr r)) (dm_volume (Dr r)) (dm_faceid (Dr r))).
    { constructor; [split; [lia|]; split; [exact L2 | exact L3] | |].
      - intros i Hi. assert (Ii : iscell_of (Dr r) i) by (unfold iscell_of; lia). split; [exact (wt_vol _ _ _ _ _ _ WT i Hi)|]. unfold Spec_sw.wet. rewrite (Vw i Ii). exact (WET _ (gcell_cell r i Hr Ii)).
      - intros i Hi. exact (wt_row _ _ _ _ _ _ WT i Hi). }
    destruct (sw_dt_ok w _ _ _ _ (co_Dx co) (co_Dy co) WS HD cfl HCFL) as (dt & Et & B0 & C0 & M0). exists (Some dt). split; [exact Et|]. exists dt. split; [reflexivity|]. split; [exact B0|].
    assert (VO : forall c, iscell_of (Dr r) c -> nthZ 0%R (dm_volume (Dr r)) c = measure_of cells nodes (gcell (Dr r) c)) by (intros c Hc; apply (pa_cell _ _ _ _ _ _ _ (PAr r Hr) c Hc)).
    assert (PW : forall c, iscell_of (Dr r) c -> (0 < wave_speed cells nodes E (W (gcell (Dr r) c)) (gcell (Dr r) c))%R).
    { intros c Hc. rewrite <- (wave_rank r w W c Hr Vw Hc). apply (sw_ws_pos w _ _ _ _ (co_Dx co) (co_Dy co) WS HD c). unfold iscell_of in Hc. lia. }
    split.
    - intros c Hc. assert (Hc' : 0 <= c < zlen (dm_faceid (Dr r))) by (unfold iscell_of in Hc; lia). specialize (C0 c Hc'). rewrite (wave_rank r w W c Hr Vw Hc), (VO c Hc) in C0.
      apply (Rmult_le_compat_r _ _ _ (Rlt_le _ _ (PW c Hc))) in C0. eapply Rle_trans; [exact C0|]. right. field. pose proof (PW c Hc). lra.
    - destruct M0 as [M0|(c & Hc & M0)]; [left; exact M0|right]. assert (Ic : iscell_of (Dr r) c) by (unfold iscell_of; lia). exists c. split; [exact Ic|]. split; [exact (PW c Ic)|].
      rewrite (wave_rank r w W c Hr Vw Ic), (VO c Ic) in M0. rewrite M0. field. pose proof (PW c Ic). lra. }
  rewrite ED. cbn [bind].
  destruct (allreduce_ok dts) as (dt & EM & (i & Hi & Ei) & ML); [lia | intros j Hj; destruct (HDt j ltac:(lia)) as (x & Ex & _); exists x; exact Ex|].
  rewrite EM. exists dt. split; [reflexivity|]. destruct (HDt i ltac:(lia)) as (dt' & E' & B0 & F0 & M0). rewrite Ei in E'. injection E' as <-. split; [lra|]. split; [exact WET|]. split.
  - split; [lra|]. intros c Hc. destruct (cells_of_ranks c Hc) as (r & a & Hr & Ha & <-). destruct (HDt r Hr) as (dr & Er & Br & Fr & _). pose proof (ML r dr ltac:(lia) Er) as LE. specialize (Fr a Ha). eapply Rle_trans; [|exact Fr].
    apply Rmult_le_compat_r; [apply wave_nonneg; exact Hc | exact LE].
  - intros d (D1 & D2). destruct M0 as [->|(a & Ha & S0 & ES)]; [exact D1|]. specialize (D2 (gcell (Dr i) a) (gcell_cell i a ltac:(lia) Ha)). rewrite <- ES in D2. apply (Rmult_le_reg_r _ _ _ S0 D2).
Qed.
End Ranks22.
