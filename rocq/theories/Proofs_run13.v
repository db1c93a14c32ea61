(** * Proofs_run13: compute_cell_gradient and compute_face_gradient on all the ranks. *)
From Coq Require Import Reals Lra Permutation Sorted.
From Verif Require Import Py PyLemmas Model_part Spec_part Model_label Model_conn Spec_conn Proofs_conn1 Proofs_conn2 Model_geom Spec_geom Proofs_geom1 Proofs_geom2 Proofs_geom3
  Model_halo Spec_halo Model_interp Spec_interp Proofs_interp4 Proofs_interp5 Proofs_interp6 Spec_lsq Proofs_lsq Properties_lsq Model_fvm Spec_fvm Proofs_fvm1 Proofs_fvm2 Properties_fvm Model_bc Spec_bc Spec_bc3 Proofs_label Proofs_bc Proofs_bc2 Proofs_bc3 Properties_bc3 Model_domain Spec_domain Proofs_domain1 Proofs_domain4
  Model_comm Model_parallel Spec_parallel Proofs_parallel1 Proofs_parallel6 Properties_parallel Model_run Spec_run Proofs_run1 Proofs_run2 Proofs_run3 Proofs_run4 Proofs_run5 Proofs_run6 Spec_run2 Model_run2 Proofs_run7 Proofs_run8 Proofs_run9 Proofs_run10 Proofs_run11 Proofs_run12.
Open Scope Z_scope.

Lemma slope_gradient dim x w l g : best_slope dim x w l g -> gradient dim g.
Proof. intros H. apply H. Qed.

Lemma finite_choice {V} (d : V) (n : Z) (Q : Z -> V -> Prop) : 0 <= n -> (forall g, 0 <= g < n -> exists v, Q g v) -> exists N, forall g, 0 <= g < n -> Q g (N g).
Proof.
  intros Hn. revert n Hn. apply (natlike_ind (fun n => (forall g, 0 <= g < n -> exists v, Q g v) -> exists N, forall g, 0 <= g < n -> Q g (N g))).
  - intros _. exists (fun _ => d). intros g Hg. lia.
  - intros n Hn IH H. destruct IH as (N & HN); [intros g Hg; apply H; lia|]. destruct (H n ltac:(lia)) as (v & Hv). exists (fun g => if g =? n then v else N g). intros g Hg. destruct (Z.eqb_spec g n) as [->|]; [exact Hv | apply HN; lia].
Qed.
Lemma nodal_unique dim cells nodes labels bc vs X g a b : nodal_value dim cells nodes labels bc vs X g a -> nodal_value dim cells nodes labels bc vs X g b -> a = b.
Proof. intros (c & s & B & ->) (c' & s' & B' & ->). destruct (best_fit_unique _ _ _ _ _ _ B B') as (-> & ->). reflexivity. Qed.

Section Ranks13.
Context (dim SIZE : Z) (cells : list (list Z)) (nodes : list pt) (labels npart0 epart : list Z) (st : setting).
Hypothesis VM : valid_mesh dim cells nodes labels.
Hypothesis PL : dim = 2 -> planar nodes.
Hypothesis VS : valid_split dim SIZE cells nodes npart0 epart.
Notation Ds := (se_domains st).
Notation Dr := (domain_of (se_domains st)).
Hypothesis RP : represents dim SIZE cells nodes labels epart Ds.
Hypothesis SC : star_connected dim cells.
Hypothesis CS : forall r, 0 <= r < SIZE -> consistent dim (Dr r).
Hypothesis HX : 1 < SIZE -> forall (V : Type) (d : V) (X : Z -> V) (w : list (list V)), values_of d SIZE Ds X w -> exists halo, update_halo_value SIZE (se_comms st) w = Ok halo /\ halo_values_of d SIZE Ds X halo.
Context (bc : list (loc * bctype)) (vs : list (loc * bcval)).
Hypothesis BV : bc_valid dim bc vs.
Hypothesis CW : corners_whole dim cells labels bc epart.
Hypothesis SP : spanned dim cells nodes.
Notation PAr := (rp_part _ _ _ _ _ _ _ RP).
Notation sees := (sees dim SIZE cells nodes labels Ds bc vs).
Notation shows := (shows dim SIZE cells nodes labels st bc vs).
Notation holds := (holds SIZE st bc vs).
Notation sizes := (Proofs_run5.sizes dim SIZE cells nodes labels epart st RP).
Notation owners := (owners11 dim SIZE cells nodes npart0 epart VS).
Notation size1 := (size11 dim SIZE cells nodes npart0 epart VS).

(** values on the cells of the ranks are the values of a field on the mesh *)
Lemma field_of {V} (d : V) (ws : list (list V)) : zlen ws = SIZE -> (forall r, 0 <= r < SIZE -> zlen (nthZ [] ws r) = zlen (dm_loctoglob (Dr r))) -> exists X, values_of d SIZE Ds X ws.
Proof.
  intros L H. exists (fun c => let r := owner epart c in match find (fun i => gcell (Dr r) i =? c) (range (zlen (dm_loctoglob (Dr r)))) with Some i => nthZ d (nthZ [] ws r) i | None => d end).
  split; [exact L|]. intros r Hr. split; [apply H; exact Hr|]. intros c Hc. cbv zeta. destruct (gcell_owned dim cells nodes labels epart r (Dr r) (PAr r Hr) c Hc) as (_ & ->).
  destruct (find _ _) as [i|] eqn:E.
  - apply find_some in E as (Hi & E). apply in_range in Hi. rewrite (gcell_inj dim cells nodes labels epart r (Dr r) (PAr r Hr) i c Hi Hc ltac:(lia)). reflexivity.
  - exfalso. apply find_none with (x := c) in E; [|apply in_range; exact Hc]. cbv beta in E. lia.
Qed.
(** every cell of the mesh is a cell of a rank *)
Lemma rank_of c : iscell cells c -> exists r a, 0 <= r < SIZE /\ iscell_of (Dr r) a /\ gcell (Dr r) a = c.
Proof.
  intros Hc. pose proof (owners c Hc) as Hr. destruct (gcell_onto dim cells nodes labels epart _ (Dr (owner epart c)) (PAr _ Hr) c Hc eq_refl) as (a & Ha & Ea). exists (owner epart c), a. auto.
Qed.

Definition slopes_of (Sl : Z -> pt) (Ps : Z -> R) (gs : list gradients) : Prop := zlen gs = SIZE /\ forall r, 0 <= r < SIZE -> exists G, get gs r = Ok G /\
  (zlen (gr_cell G) = zlen (dm_loctoglob (Dr r)) /\ zlen (gr_psi G) = zlen (dm_loctoglob (Dr r)) /\ zlen (gr_halo G) = zlen (dm_hext (Dr r)) /\ zlen (gr_psih G) = zlen (dm_hext (Dr r))) /\
  (forall c, iscell_of (Dr r) c -> nthZ vzero (gr_cell G) c = Sl (gcell (Dr r) c) /\ nthZ 0%R (gr_psi G) c = Ps (gcell (Dr r) c)) /\
  (forall h, ishalo_of (Dr r) h -> nthZ vzero (gr_halo G) h = Sl (ghalo (Dr r) h) /\ nthZ 0%R (gr_psih G) h = Ps (ghalo (Dr r) h)).

Lemma gradient_rank_ok r X v W : 0 <= r < SIZE -> arrays v = Ok W -> sees r X W -> exists gs psi, gradient_rank (Dr r) v = Ok (gs, psi) /\ zlen gs = zlen (dm_loctoglob (Dr r)) /\ zlen psi = zlen (dm_loctoglob (Dr r)) /\
  forall c, iscell_of (Dr r) c -> cell_slope dim cells nodes labels bc vs X (gcell (Dr r) c) (nthZ vzero gs c) /\ limiter dim cells nodes labels bc vs X (nthZ vzero gs c) (gcell (Dr r) c) (nthZ 0%R psi c).
Proof.
  intros Hr EA SE. unfold gradient_rank. rewrite EA. cbn [bind]. rewrite (cs_dim _ _ (CS r Hr)). destruct (sizes r Hr) as (Z1 & Z2).
  assert (TOT : exists gs, cell_gradient dim (dom_cell (Dr r)) W = Ok gs /\ zlen gs = zlen (dm_center (Dr r))).
  { destruct (cs_cells _ _ (CS r Hr)) as (WC & PZ). destruct (C25_least_squares dim (dom_cell (Dr r)) _ _ _ W WC (se_wf _ _ _ _ _ _ _ _ _ _ _ SE)) as (gs & E & EL & _); [right; exact PZ|]. exists gs. auto. }
  destruct TOT as (gs0 & E0 & L0). rewrite E0. cbn [bind].
  destruct (known_ok vzero gs0 (fun c s => cell_slope dim cells nodes labels bc vs X (gcell (Dr r) c) s)) as (gs & EK & LK & HK).
  { intros c Hc. destruct (cell_slope_ok dim SIZE cells nodes labels epart Ds VM PL RP SC owners CS bc vs SP r X W c Hr SE ltac:(unfold iscell_of; lia)) as (gs' & s & E' & _ & Es & BS). rewrite E0 in E'. injection E' as <-. exists s. auto. }
  rewrite EK. cbn [bind].
  destruct (limiter_ok dim cells nodes labels epart r (Dr r) VM (PAr r Hr) (CS r Hr) bc vs X W (se_wf _ _ _ _ _ _ _ _ _ _ _ SE) (se_cell _ _ _ _ _ _ _ _ _ _ _ SE) (se_halo _ _ _ _ _ _ _ _ _ _ _ SE) (se_ghost _ _ _ _ _ _ _ _ _ _ _ SE) gs) as (psi & EP & LP & HP).
  { lia. } { intros c Hc. exact (slope_gradient _ _ _ _ _ (HK c ltac:(unfold iscell_of in Hc; lia))). }
  rewrite EP. cbn [bind]. exists gs, psi. split; [reflexivity|]. split; [lia|]. split; [lia|]. intros c Hc. split; [apply HK; unfold iscell_of in Hc; lia | apply HP; exact Hc].
Qed.

Lemma values_map {V V'} (d : V) (d' : V') (g : V -> V') X ws : values_of d SIZE Ds X ws -> values_of d' SIZE Ds (fun c => g (X c)) (map (map g) ws).
Proof.
  intros (L & H). split; [rewrite zlen_map; exact L|]. intros r Hr. destruct (H r Hr) as (L' & H'). rewrite (nthZ_map _ []) by lia. split; [rewrite zlen_map; exact L'|]. intros c Hc. rewrite (nthZ_map _ d) by (unfold iscell_of in Hc; lia). rewrite (H' c Hc). reflexivity.
Qed.

Lemma cell_gradient_ok X l : holds X l -> exists l' gs Sl Ps, compute_cell_gradient SIZE st l = Ok (l', gs) /\ shows X l' /\
  (forall c, iscell cells c -> cell_slope dim cells nodes labels bc vs X c (Sl c) /\ limiter dim cells nodes labels bc vs X (Sl c) c (Ps c)) /\ slopes_of Sl Ps gs.
Proof.
  intros HH. pose proof size1 as S1. destruct (update_values_full dim SIZE cells nodes labels npart0 epart st VM PL VS RP CS HX bc vs BV CW X l HH) as (l1 & E1 & HS1). pose proof HS1 as (ws & L1 & V1 & H1). unfold compute_cell_gradient. rewrite E1. cbn [bind].
  destruct (mapM_ranks (fun r => do D <- get Ds r; do v <- get l1 r; gradient_rank D v) (fun r p => zlen (fst p) = zlen (dm_loctoglob (Dr r)) /\ zlen (snd p) = zlen (dm_loctoglob (Dr r)) /\
     forall c, iscell_of (Dr r) c -> cell_slope dim cells nodes labels bc vs X (gcell (Dr r) c) (nthZ vzero (fst p) c) /\ limiter dim cells nodes labels bc vs X (nthZ vzero (fst p) c) (gcell (Dr r) c) (nthZ 0%R (snd p) c)) SIZE ltac:(lia)) as (gp & EG & LG & HG).
  { intros r Hr. rewrite (dom11 dim SIZE cells nodes labels epart st RP r Hr). cbn [bind]. destruct (H1 r Hr) as (v & W & Ev & _ & EA & SE). rewrite Ev. cbn [bind]. destruct (gradient_rank_ok r X v W Hr EA SE) as (gs & psi & E' & A1 & A2 & A3). exists (gs, psi). split; [exact E'|]. auto. }
  rewrite EG. cbn [bind].
  assert (NG : forall r, 0 <= r < SIZE -> zlen (fst (nthZ ([], []) gp r)) = zlen (dm_loctoglob (Dr r)) /\ zlen (snd (nthZ ([], []) gp r)) = zlen (dm_loctoglob (Dr r)) /\
     forall c, iscell_of (Dr r) c -> cell_slope dim cells nodes labels bc vs X (gcell (Dr r) c) (nthZ vzero (fst (nthZ ([], []) gp r)) c) /\ limiter dim cells nodes labels bc vs X (nthZ vzero (fst (nthZ ([], []) gp r)) c) (gcell (Dr r) c) (nthZ 0%R (snd (nthZ ([], []) gp r)) c)).
  { intros r Hr. destruct (HG r Hr) as (p & Ep & _ & Q). rewrite (get_nthZ ([], [])) in Ep by lia. injection Ep as <-. exact Q. }
  destruct (field_of vzero (map fst gp)) as (Sl & VSl); [rewrite zlen_map; exact LG | intros r Hr; rewrite (nthZ_map _ ([], [])) by lia; apply NG; exact Hr|].
  destruct (field_of 0%R (map snd gp)) as (Ps & VPs); [rewrite zlen_map; exact LG | intros r Hr; rewrite (nthZ_map _ ([], [])) by lia; apply NG; exact Hr|].
  assert (EX : forall (g : pt -> R), exists h, exchange SIZE (se_comms st) (map (fun p => map g (fst p)) gp) = Ok h /\ halo_values_of 0%R SIZE Ds (fun c => g (Sl c)) h).
  { intros g. replace (map (fun p => map g (fst p)) gp) with (map (map g) (map fst gp)) by (rewrite map_map; reflexivity). apply (exchange_ok dim SIZE cells nodes labels npart0 epart st VS RP HX). apply (values_map vzero). exact VSl. }
  destruct (EX px) as (hx & Ex & Lx & Vx). destruct (EX py) as (hy & Ey & Ly & Vy). destruct (EX pz) as (hz & Ez & Lz & Vz). destruct (exchange_ok dim SIZE cells nodes labels npart0 epart st VS RP HX 0%R Ps _ VPs) as (hp & Ep & Lp & Vp).
  rewrite Ex, Ey, Ez, Ep. cbn [bind].
  destruct (mapM_ranks (fun r => do p <- get gp r; do x <- get hx r; do y <- get hy r; do z <- get hz r; do q <- get hp r; ret {| gr_cell := fst p; gr_psi := snd p; gr_halo := components x y z; gr_psih := q |})
    (fun r G => (zlen (gr_cell G) = zlen (dm_loctoglob (Dr r)) /\ zlen (gr_psi G) = zlen (dm_loctoglob (Dr r)) /\ zlen (gr_halo G) = zlen (dm_hext (Dr r)) /\ zlen (gr_psih G) = zlen (dm_hext (Dr r))) /\
      (forall c, iscell_of (Dr r) c -> nthZ vzero (gr_cell G) c = Sl (gcell (Dr r) c) /\ nthZ 0%R (gr_psi G) c = Ps (gcell (Dr r) c)) /\
      (forall h, ishalo_of (Dr r) h -> nthZ vzero (gr_halo G) h = Sl (ghalo (Dr r) h) /\ nthZ 0%R (gr_psih G) h = Ps (ghalo (Dr r) h))) SIZE ltac:(lia)) as (gs & EF & LF & HF).
  { intros r Hr. rewrite (get_nthZ ([], []) gp) by lia. rewrite !(get_nthZ (@nil R)) by lia. cbn [bind]. eexists. split; [reflexivity|]. cbn [gr_cell gr_psi gr_halo gr_psih]. destruct (NG r Hr) as (N1 & N2 & _). destruct (Vx r Hr) as (X1 & X2). destruct (Vy r Hr) as (Y1 & Y2). destruct (Vz r Hr) as (Z1 & Z2). destruct (Vp r Hr) as (P1 & P2).
    destruct VSl as (_ & VSl). destruct VPs as (_ & VPs). destruct (VSl r Hr) as (_ & A). destruct (VPs r Hr) as (_ & B). rewrite (nthZ_map _ ([], [])) in A by lia. rewrite (nthZ_map _ ([], [])) in B by lia.
    split; [|split].
    - split; [exact N1|]. split; [exact N2|]. split; [unfold components; rewrite zlen_map, zlen_range by apply zlen_nonneg; exact X1 | exact P1].
    - intros c Hc. split; [apply A; exact Hc | apply B; exact Hc].
    - intros h Hh. split; [|apply P2; exact Hh]. unfold components. rewrite (nthZ_map _ 0) by (rewrite zlen_range by apply zlen_nonneg; unfold ishalo_of in Hh; lia). rewrite nthZ_range by (unfold ishalo_of in Hh; lia). rewrite X2, Y2, Z2 by exact Hh. destruct (Sl (ghalo (Dr r) h)); reflexivity. }
  rewrite EF. cbn [bind]. exists l1, gs, Sl, Ps. split; [reflexivity|]. split; [exact HS1|]. split.
  - intros c Hc. destruct (rank_of c Hc) as (r & a & Hr & Ha & <-). destruct (NG r Hr) as (_ & _ & N). destruct VSl as (_ & VSl). destruct VPs as (_ & VPs). destruct (VSl r Hr) as (_ & A). destruct (VPs r Hr) as (_ & B). rewrite (nthZ_map _ ([], [])) in A by lia. rewrite (nthZ_map _ ([], [])) in B by lia. rewrite <- (A a Ha), <- (B a Ha). apply N. exact Ha.
  - split; [exact LF|]. intros r Hr. destruct (HF r Hr) as (G & EGr & _ & Q). exists G. split; [exact EGr | exact Q].
Qed.

(** ** The gradients at the faces *)
Lemma boundary_listed r f : 0 <= r < SIZE -> isface (Dr r) f -> 1 <= nthZ 0 (dm_name (Dr r)) f <= 2 * dim -> on_boundary (Dr r) f.
Proof.
  intros Hr If Hn. pose proof (wm_dim _ _ _ (vm_mesh _ _ _ _ VM)) as Hd. assert (HI : In f (all_faces (dom_lists (Dr r)))). { apply (Permutation_in _ (Permutation_sym (cs_each_face_once _ _ (CS r Hr)))). apply in_range. unfold isface in If. destruct (pa_sizes _ _ _ _ _ _ _ (PAr r Hr)) as (_ & _ & _ & _ & SF & _). lia. }
  destruct (cs_fv _ _ (CS r Hr)) as (_ & (A & B & C & _)). unfold fv_label in *. cbn [dom_fv fv_name] in *. unfold all_faces in HI. apply in_app_iff in HI as [HI|HI]; [apply A in HI; lia|]. apply in_app_iff in HI as [HI|HI]; [apply B in HI as (_ & HI); unfold is_periodic, is_x, is_y, is_z in HI; lia|].
  apply in_app_iff in HI as [HI|HI]; [apply C in HI; lia | exact HI].
Qed.
Lemma lists_of_variable r w v : 0 <= r < SIZE -> vfull (dom_bc (Dr r)) bc vs w v -> lists_ok dim (dom_face (Dr r)) (var_lists (Dr r) v) /\ forall f, isface (Dr r) f -> listed (var_lists (Dr r) v) f.
Proof.
  intros Hr F. pose proof (wm_dim _ _ _ (vm_mesh _ _ _ _ VM)) as Hd. destruct (full_lists _ _ _ _ _ F) as (E1 & E2). destruct BV as (ND & TY & CO & DF & VL). destruct (faces_count dim cells nodes labels epart r (Dr r) (PAr r Hr) (CS r Hr)) as (FC & _).
  assert (LAB : forall l f, In l (sides dim) -> In f (bc_faces (dom_bc (Dr r)) l) -> on_boundary (Dr r) f).
  { intros l f Hl Hf. apply bc_faces_in in Hf as (Hf & Ef). unfold face_name in Ef. cbn [dom_bc bd_name] in Hf, Ef. apply (boundary_listed r f Hr); [unfold isface; lia|]. rewrite Ef. unfold sides in Hl. destruct (Z.eqb_spec dim 3) as [->|]; cbn [In] in Hl; repeat (destruct Hl as [<-|Hl]; [cbn [side_label]; lia|]); destruct Hl. }
  split.
  - unfold var_lists. apply (cs_facelists _ _ (CS r Hr)). rewrite E1, E2. intros f Hf. rewrite !np_sort_In in Hf. unfold dir_faces, neu_faces in Hf. rewrite !in_flat_map in Hf.
    destruct Hf as [((l, t) & Hin & Hf)|((l, t) & Hin & Hf)]; cbn [fst snd] in Hf; destruct (TY l t Hin) as (Hl & [-> | ->]); try destruct Hf; apply (LAB l f Hl Hf).
  - intros f If. assert (HI : In f (all_faces (dom_lists (Dr r)))). { apply (Permutation_in _ (Permutation_sym (cs_each_face_once _ _ (CS r Hr)))). apply in_range. unfold isface in If. destruct (pa_sizes _ _ _ _ _ _ _ (PAr r Hr)) as (_ & _ & _ & _ & SF & _). lia. }
    unfold listed, var_lists. cbn [fl_inner fl_periodic fl_halo fl_dirichlet fl_neumann]. unfold all_faces in HI. rewrite !in_app_iff in HI. destruct HI as [HI|[HI|[HI|HI]]]; [tauto | tauto | tauto|]. right. right. right. rewrite E1, E2, !np_sort_In.
    destruct (cs_fv _ _ (CS r Hr)) as (_ & (_ & _ & _ & B)). destruct (B f HI) as (_ & Hn). unfold fv_label in Hn. cbn [dom_fv fv_name] in Hn. destruct (side_of_label dim _ Hd Hn) as (l & Hl & El). pose proof (CO l Hl) as HIn. apply in_map_iff in HIn as ((l', t) & E & Hin). cbn [fst] in E. subst l'.
    assert (Hf : In f (bc_faces (dom_bc (Dr r)) l)) by (apply bc_faces_in; unfold face_name; cbn [dom_bc bd_name]; unfold isface in If; split; [lia | symmetry; exact El]).
    unfold dir_faces, neu_faces. rewrite !in_flat_map. destruct (TY l t Hin) as (_ & [-> | ->]); [left; exists (l, BDirichlet) | right; exists (l, BNeumann)]; (split; [exact Hin | exact Hf]).
Qed.

(** node values and face gradients as functions on the mesh *)
Lemma nodes_field X l : node_values dim SIZE cells nodes labels st bc vs X l -> exists N, (forall c g, iscell cells c -> In g (cell cells c) -> nodal_value dim cells nodes labels bc vs X g (N g)) /\
  forall r, 0 <= r < SIZE -> exists v, get l r = Ok v /\ zlen (nthZ [] (va_heap v) r_node) = zlen (dm_nodeglob (Dr r)) /\ forall k, isnode_of (Dr r) k -> nthZ 0%R (nthZ [] (va_heap v) r_node) k = N (gnode (Dr r) k).
Proof.
  intros HN. destruct (finite_choice 0%R (zlen nodes) (fun g v => forall c, iscell cells c -> In g (cell cells c) -> nodal_value dim cells nodes labels bc vs X g v) (zlen_nonneg _)) as (N & HQ).
  - intros g Hg. destruct (existsb (fun c => mem g (cell cells c)) (range (zlen cells))) eqn:E.
    + apply existsb_exists in E as (c & Hc & Hm). apply in_range in Hc. apply mem_In in Hm. destruct (rank_of c Hc) as (r & a & Hr & Ha & <-). destruct (HN r Hr) as (v & n & Ev & En & Ln & Hn).
      destruct (pa_cell _ _ _ _ _ _ _ (PAr r Hr) a Ha) as (PC & _). apply (Permutation_in _ (Permutation_sym PC)) in Hm. apply in_map_iff in Hm as (k & <- & Hk). pose proof (proj1 (pa_numbers _ _ _ _ _ _ _ (PAr r Hr)) a Ha) as NB. rewrite Forall_forall in NB. exists (nthZ 0%R n k). intros _ _ _. apply Hn, NB, Hk.
    + exists 0%R. intros c Hc Hm. exfalso. assert (X0 : existsb (fun c => mem g (cell cells c)) (range (zlen cells)) = true) by (apply existsb_exists; exists c; split; [apply in_range; exact Hc | apply mem_In; exact Hm]). congruence.
  - assert (HQ' : forall c g, iscell cells c -> In g (cell cells c) -> nodal_value dim cells nodes labels bc vs X g (N g)). { intros c g Hc Hg. apply (HQ g) with (c := c); [|exact Hc | exact Hg]. destruct (wm_rows _ _ _ (vm_mesh _ _ _ _ VM) (cell cells c) ltac:(apply nthZ_In; exact Hc)) as (_ & _ & B). apply B. exact Hg. }
    exists N. split; [exact HQ'|]. intros r Hr. destruct (HN r Hr) as (v & n & Ev & En & Ln & Hn). exists v. rewrite En. split; [exact Ev|]. split; [exact Ln|]. intros k Hk. destruct (node_cell dim SIZE cells nodes labels epart Ds RP r k Hr Hk) as (c & Hc & _ & Hg). exact (nodal_unique _ _ _ _ _ _ _ _ _ _ (Hn k Hk) (HQ' c _ Hc Hg)).
Qed.
Lemma facets_field (gs : list (list pt)) : exists G : Z -> list Z -> pt, forall r c f, 0 <= r < SIZE -> iscell_of (Dr r) c -> In f (nthZ [] (dm_faceid (Dr r)) c) -> nthZ vzero (nthZ [] gs r) f = G (gcell (Dr r) c) (fset (Dr r) f).
Proof.
  exists (fun c F => let r := owner epart c in match find (fun i => gcell (Dr r) i =? c) (range (zlen (dm_loctoglob (Dr r)))) with
    | Some a => match find (fun f => if list_eq_dec Z.eq_dec (fset (Dr r) f) F then true else false) (nthZ [] (dm_faceid (Dr r)) a) with Some f => nthZ vzero (nthZ [] gs r) f | None => vzero end | None => vzero end).
  intros r c f Hr Hc Hf. cbv zeta. destruct (gcell_owned dim cells nodes labels epart r (Dr r) (PAr r Hr) c Hc) as (_ & ->).
  destruct (find (fun i => gcell (Dr r) i =? gcell (Dr r) c) _) as [i|] eqn:E. 2:{ exfalso. apply find_none with (x := c) in E; [|apply in_range; exact Hc]. cbv beta in E. lia. }
  apply find_some in E as (Hi & E). apply in_range in Hi. rewrite (gcell_inj dim cells nodes labels epart r (Dr r) (PAr r Hr) i c Hi Hc ltac:(lia)).
  destruct (find _ (nthZ [] (dm_faceid (Dr r)) c)) as [f'|] eqn:E'.
  - apply find_some in E' as (Hf' & E'). destruct (list_eq_dec Z.eq_dec (fset (Dr r) f') (fset (Dr r) f)) as [EF|]; [|discriminate E']. rewrite (fset_inj dim cells nodes labels epart r (Dr r) (PAr r Hr) f' f); [reflexivity | | | exact EF];
      [apply (faces_lists dim cells nodes labels epart r (Dr r) (PAr r Hr) (CS r Hr) c f' Hc Hf') | apply (faces_lists dim cells nodes labels epart r (Dr r) (PAr r Hr) (CS r Hr) c f Hc Hf)].
  - exfalso. apply find_none with (x := f) in E'; [|exact Hf]. cbv beta in E'. destruct (list_eq_dec Z.eq_dec (fset (Dr r) f) (fset (Dr r) f)); [discriminate E' | congruence].
Qed.

Lemma face_rank_ok r X N w v W g : 0 <= r < SIZE -> vfull (dom_bc (Dr r)) bc vs w v -> arrays v = Ok W -> sees r X W -> zlen (nthZ [] (va_heap v) r_node) = zlen (dm_nodeglob (Dr r)) ->
  (forall k, isnode_of (Dr r) k -> nthZ 0%R (nthZ [] (va_heap v) r_node) k = N (gnode (Dr r) k)) -> zlen g = zlen (dm_cellid (Dr r)) ->
  exists gs, face_rank (Dr r) v g = Ok gs /\ zlen gs = zlen (dm_cellid (Dr r)) /\
  forall c f, iscell_of (Dr r) c -> In f (nthZ [] (dm_faceid (Dr r)) c) -> facet_slope dim cells nodes labels bc vs X N (gcell (Dr r) c) (fset (Dr r) f) (nthZ vzero gs f).
Proof.
  intros Hr F EA SE LN HN LG. unfold face_rank. rewrite EA. cbn [bind]. rewrite (get_nthZ []) by (pose proof (full_heap _ _ _ _ _ F); unfold r_node; lia). cbn [bind]. rewrite (cs_dim _ _ (CS r Hr)). destruct (lists_of_variable r w v Hr F) as (LO & LI).
  destruct (facet_slope_ok dim cells nodes labels epart r (Dr r) VM PL (PAr r Hr) (CS r Hr) bc vs X W (se_wf _ _ _ _ _ _ _ _ _ _ _ SE) (se_cell _ _ _ _ _ _ _ _ _ _ _ SE) (se_halo _ _ _ _ _ _ _ _ _ _ _ SE) (se_ghost _ _ _ _ _ _ _ _ _ _ _ SE) N _ LN HN (var_lists (Dr r) v) (map Some g) LO LI) as (gs0 & E0 & L0 & H0); [rewrite zlen_map; exact LG|].
  rewrite E0. cbn [bind].
  destruct (known_ok vzero gs0 (fun f s => nthZ None gs0 f = Some s)) as (gs & EK & LK & HK).
  { intros f Hf. assert (If : isface (Dr r) f) by (unfold isface; destruct (pa_sizes _ _ _ _ _ _ _ (PAr r Hr)) as (_ & _ & _ & _ & SF & _); lia). destruct (fset_facet dim cells nodes labels epart r (Dr r) (PAr r Hr) f If) as (a & HF & HO & HG). subst r.
    destruct (gcell_onto dim cells nodes labels epart _ (Dr _) (PAr _ Hr) a (proj1 HF) eq_refl) as (c & Hc & Ec). destruct (H0 c f Hc) as (s & Es & _); [|exists s; auto]. apply (pa_cellfaces _ _ _ _ _ _ _ (PAr _ Hr) c f _ Hc HG). rewrite Ec. apply HF. }
  exists gs. split; [exact EK|]. split; [lia|]. intros c f Hc Hf. destruct (faces_lists dim cells nodes labels epart r (Dr r) (PAr r Hr) (CS r Hr) c f Hc Hf) as (_ & If & _). destruct (H0 c f Hc Hf) as (s & Es & FS). specialize (HK f ltac:(unfold isface in If; destruct (pa_sizes _ _ _ _ _ _ _ (PAr r Hr)) as (_ & _ & _ & _ & SF & _); lia)). cbv beta in HK. rewrite Es in HK. injection HK as <-. exact FS.
Qed.

Definition face_slopes_of (G : Z -> list Z -> pt) (gs : list (list pt)) : Prop := zlen gs = SIZE /\ forall r, 0 <= r < SIZE -> exists g, get gs r = Ok g /\ zlen g = zlen (dm_cellid (Dr r)) /\
  forall c f, iscell_of (Dr r) c -> In f (nthZ [] (dm_faceid (Dr r)) c) -> nthZ vzero g f = G (gcell (Dr r) c) (fset (Dr r) f).
Definition faces_sized (g : list (list pt)) : Prop := forall r, 0 <= r < SIZE -> exists x, get g r = Ok x /\ zlen x = zlen (dm_cellid (Dr r)).
Lemma face_gradient_all X l g : holds X l -> faces_sized g -> exists l' gs N G, compute_face_gradient SIZE st l g = Ok (l', gs) /\ shows X l' /\
  (forall c k, iscell cells c -> In k (cell cells c) -> nodal_value dim cells nodes labels bc vs X k (N k)) /\
  (forall c F, iscell cells c -> In F (facets (cell cells c)) -> facet_slope dim cells nodes labels bc vs X N c F (G c F)) /\ face_slopes_of G gs.
Proof.
  intros HH HG0. pose proof size1 as S1. destruct (interpolate_ok dim SIZE cells nodes labels npart0 epart st VM PL VS RP SC CS HX bc vs BV CW SP X l HH) as (l1 & E1 & HS & NV). pose proof HS as (ws & L1 & V1 & H1). unfold compute_face_gradient. rewrite E1. cbn [bind].
  destruct (nodes_field X l1 NV) as (N & HN & NR).
  destruct (mapM_ranks (fun r => do D <- get Ds r; do v <- get l1 r; do g <- get g r; face_rank D v g) (fun r gs => zlen gs = zlen (dm_cellid (Dr r)) /\
     forall c f, iscell_of (Dr r) c -> In f (nthZ [] (dm_faceid (Dr r)) c) -> facet_slope dim cells nodes labels bc vs X N (gcell (Dr r) c) (fset (Dr r) f) (nthZ vzero gs f)) SIZE ltac:(lia)) as (gs & EF & LF & HF).
  { intros r Hr. rewrite (dom11 dim SIZE cells nodes labels epart st RP r Hr). cbn [bind]. destruct (H1 r Hr) as (v & W & Ev & FU & EA & SE). destruct (NR r Hr) as (v' & Ev' & LN & HNr). rewrite Ev in Ev'. injection Ev' as <-. rewrite Ev. cbn [bind]. destruct (HG0 r Hr) as (x & Ex & Lx). rewrite Ex. cbn [bind].
    destruct (face_rank_ok r X N _ v W x Hr FU EA SE LN HNr Lx) as (gs & E & L & H). exists gs. auto. }
  rewrite EF. cbn [bind]. destruct (facets_field gs) as (G & HG). exists l1, gs, N, G. split; [reflexivity|]. split; [exact HS|]. split; [exact HN|]. split.
  - intros c F Hc HIn. destruct (rank_of c Hc) as (r & a & Hr & Ha & <-). apply (in_row dim cells nodes labels epart r (Dr r) VM (PAr r Hr) (CS r Hr) a F Ha) in HIn as (f & Hf & ->). destruct (HF r Hr) as (x & Ex & _ & _ & Q). rewrite (get_nthZ []) in Ex by lia. injection Ex as <-. rewrite <- (HG r a f Hr Ha Hf). exact (Q a f Ha Hf).
  - split; [exact LF|]. intros r Hr. destruct (HF r Hr) as (x & Ex & _ & Lx & _). exists x. split; [exact Ex|]. split; [exact Lx|]. rewrite (get_nthZ []) in Ex by lia. injection Ex as <-. intros c f Hc Hf. exact (HG r c f Hr Hc Hf).
Qed.
End Ranks13.
