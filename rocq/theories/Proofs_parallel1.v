(** * Proofs_parallel1: what a rank has read makes a valid rank. *)
From Coq Require Import Reals Permutation Sorted Lra.
From Verif Require Import Py PyLemmas Model_part Spec_part Model_label Model_conn Spec_conn Proofs_conn1 Proofs_conn2 Proofs_conn3 Model_geom Spec_geom Proofs_geom1 Proofs_geom2 Proofs_geom3
  Model_halo Spec_halo Model_interp Spec_interp Model_haloghost Model_domain Spec_domain Proofs_domain1 Proofs_domain4 Model_parallel Spec_parallel.
Open Scope Z_scope.

(** ** facts about any mesh *)
Section Mesh.
Context (dim : Z) (cells : list (list Z)) (nodes : list pt).
Hypothesis WF : wf_mesh dim (zlen nodes) cells.
Hypothesis NFL : forall c, iscell cells c -> nonflat dim nodes (cell cells c).
Hypothesis PR : proper dim nodes cells.
Lemma opposite_node c F : has_facet dim cells c F -> exists x, Permutation (cell cells c) (x :: F) /\ In x (cell cells c) /\ ~ In x F.
Proof.
  intros (Hc & HF). destruct (wm_rows _ _ _ WF (cell cells c)) as (HL & ND & _); [apply nthZ_In; exact Hc|]. apply (facet_split dim (cell cells c) F ND HL HF).
Qed.
Lemma mesh_conforming : conforming dim cells.
Proof.
  intros F a b c Ha Hb Hc. destruct (Z.eq_dec a b) as [->|N1]; [auto|]. destruct (Z.eq_dec b c) as [->|N2]; [auto|]. destruct (Z.eq_dec a c) as [->|N3]; [auto|]. exfalso.
  destruct (opposite_node a F Ha) as (x & _ & Ix & Nx), (opposite_node b F Hb) as (y & _ & Iy & Ny), (opposite_node c F Hc) as (z & _ & Iz & Nz).
  pose proof (PR F a b x y Ha Hb N1 Ix Nx Iy Ny) as P1. pose proof (PR F b c y z Hb Hc N2 Iy Ny Iz Nz) as P2.
  pose proof (PR F a c x z Ha Hc N3 Ix Nx Iz Nz) as P3.
  set (s := side nodes F (at_node nodes x)) in *. set (t := side nodes F (at_node nodes y)) in *. set (u := side nodes F (at_node nodes z)) in *.
  assert (0 < (s * t) * (t * u))%R by (replace ((s * t) * (t * u))%R with ((- (s * t)) * (- (t * u)))%R by ring; apply Rmult_lt_0_compat; lra).
  assert (0 <= t * t)%R by apply Rle_0_sqr. assert ((s * t) * (t * u) = (t * t) * (s * u))%R by ring. assert ((t * t) * (s * u) <= 0)%R by (assert (0 <= (t * t) * (- (s * u)))%R by (apply Rmult_le_pos; lra); lra). lra.
Qed.
Lemma centre_same_side c F x : has_facet dim cells c F -> In x (cell cells c) -> ~ In x F ->
  exists k : R, (0 < k)%R /\ side nodes F (cell_centre dim nodes (cell cells c)) = (k * side nodes F (at_node nodes x))%R /\ side nodes F (at_node nodes x) <> 0%R.
Proof.
  intros HF Ix Nx. pose proof (facet_zlen _ _ _ (proj2 HF)) as HL. destruct (opposite_node c F HF) as (x' & P & _ & _). assert (x' = x).
  { apply (Permutation_in x) in P; [|exact Ix]. destruct P as [P|P]; [exact P | contradiction]. } subst x'.
  destruct (c11 dim (zlen nodes) _ (WFo dim nodes cells WF)) as (cn & Hcn & _). pose proof (wm_dim _ _ _ WF) as Hd.
  pose proof (center_side dim nodes cells WF cn Hcn c F x (proj1 HF) P HL) as E. rewrite (side_point dim nodes F _ Hd HL) in E.
  unfold centerc in E. rewrite (cell_centre_geo dim nodes _ Hd) in E by (apply (wm_rows _ _ _ WF), nthZ_In; exact (proj1 HF)).
  pose proof (kap_pos dim). assert (HD : (0 < IZR dim + 1)%R) by (rewrite <- plus_IZR; apply IZR_lt; destruct Hd; lia).
  exists (/ (IZR dim + 1))%R. split; [apply Rinv_0_lt_compat; exact HD|]. split.
  - unfold V in E. unfold at_node. apply Rmult_eq_reg_l with (kap dim); [|lra]. rewrite E. unfold Rdiv. change p0 with vzero. ring.
  - apply (nonflat_side dim nodes cells WF cn Hcn c F x P HL). apply NFL. exact (proj1 HF).
Qed.
End Mesh.

(** ** what a rank has read; [Ln]: the numbers in the mesh of its nodes *)
Record rank_ok (dim SIZE : Z) (cells : list (list Z)) (nodes : list pt) (labels epart : list Z) (r : Z) (L : local) (Ln : list Z) : Prop := {
  ro_cell : lo_cell L = owned cells epart r;
  ro_nodup : NoDup Ln;
  ro_in : forall g, In g Ln <-> exists c, iscell cells c /\ owner epart c = r /\ In g (cell cells c);
  ro_cells : Forall2 (fun c e => map (nthZ (-1) Ln) e = cell cells c /\ Forall (fun l => 0 <= l < zlen Ln) e) (lo_cell L) (lo_cells L);
  ro_vertex : lo_vertex L = map (at_node nodes) Ln;
  ro_label : lo_label L = map (nthZ 0 labels) Ln;
  ro_glob : Ln = if SIZE =? 1 then range (zlen Ln) else lo_node L;
  ro_ext : forall row, In row (lo_ext L) <-> exists c, row = c :: cell cells c /\ iscell cells c /\ owner epart c <> r /\ exists c', iscell cells c' /\ owner epart c' = r /\ share_node cells c c';
  ro_extnodup : NoDup (map (hd (-1)) (lo_ext L));
  ro_center : lo_center L = map (fun row => cell_centre dim nodes (tl row)) (lo_ext L);
  ro_neigh : forall p, In p (lo_neigh L) <-> p <> r /\ adjacent cells epart r p;
  ro_parts : 1 < SIZE -> zlen (lo_parts L) = zlen nodes /\ forall k c, iscell cells c -> In k (cell cells c) -> NoDup (nthZ [] (lo_parts L) k) /\
       forall p, In p (nthZ [] (lo_parts L) k) <-> exists c', iscell cells c' /\ In k (cell cells c') /\ owner epart c' = p }.

Lemma Forall2_nthZ {A B} (R : A -> B -> Prop) dA dB l l' : Forall2 R l l' -> zlen l = zlen l' /\ forall i, 0 <= i < zlen l -> R (nthZ dA l i) (nthZ dB l' i).
Proof.
  induction 1 as [|x y l l' HR H (IH1 & IH2)]; [split; [reflexivity | intros i Hi; cbn in Hi; lia]|]. rewrite !zlen_cons. split; [lia|]. intros i Hi. destruct (Z.eq_dec i 0) as [->|N]; [exact HR|].
  assert (E : forall T (d x : T) l, nthZ d (x :: l) i = nthZ d l (i - 1)). { intros T d z m. unfold nthZ. replace (Z.to_nat i) with (Datatypes.S (Z.to_nat (i - 1))) by lia. reflexivity. }
  rewrite !E. apply IH2. lia.
Qed.
Lemma nthZ_inj_NoDup {A} (d : A) l i j : NoDup l -> 0 <= i < zlen l -> 0 <= j < zlen l -> nthZ d l i = nthZ d l j -> i = j.
Proof. intros ND Hi Hj E. unfold nthZ in E. apply (proj1 (NoDup_nth _ d) ND) in E; unfold zlen in *; lia. Qed.
Lemma nthZ_dflt {A} (d d' : A) l i : 0 <= i < zlen l -> nthZ d l i = nthZ d' l i.
Proof. intros H. unfold nthZ. apply nth_indep. unfold zlen in H. lia. Qed.
Lemma np_sort_lt l : NoDup l -> StronglySorted Z.lt (np_sort l).
Proof.
  intros ND. assert (ND' : NoDup (np_sort l)) by (apply (Permutation_NoDup (Permutation_sym (np_sort_perm l)) ND)). revert ND'. generalize (np_sort_sorted l). generalize (np_sort l). intros m. induction 1 as [|x m HS IH HF]; intros ND'; [constructor|].
  apply NoDup_cons_iff in ND' as (Nx & ND'). constructor; [apply IH; exact ND'|]. rewrite Forall_forall in *. intros y Hy. specialize (HF y Hy). assert (x <> y) by (intros ->; contradiction). lia.
Qed.
Lemma side_map nodes Ln F p : (forall k, In k F -> 0 <= k < zlen Ln) -> side (map (at_node nodes) Ln) F p = side nodes (map (nthZ 0 Ln) F) p.
Proof.
  intros H. unfold side. rewrite map_map. replace (map (fun x => at_node nodes (nthZ 0 Ln x)) F) with (map (at_node (map (at_node nodes) Ln)) F); [reflexivity|].
  apply map_ext_in. intros k Hk. unfold at_node at 1. apply (nthZ_map (at_node nodes) 0). apply H, Hk.
Qed.
Lemma map_inj_perm_sorted F G : StronglySorted Z.lt G -> NoDup F -> (forall x, In x F <-> In x G) -> np_sort F = G.
Proof. intros S ND H. apply sorted_lt_unique; [apply np_sort_lt; exact ND | exact S|]. intros x. rewrite np_sort_In. apply H. Qed.

Section Rank.
Context (dim SIZE : Z) (cells : list (list Z)) (nodes : list pt) (labels npart0 epart : list Z).
Hypothesis VM : valid_mesh dim cells nodes labels.
Hypothesis VS : valid_split dim SIZE cells nodes npart0 epart.
Context (r : Z).
Hypothesis Hr : 0 <= r < SIZE.
Context (L : local) (Ln : list Z).
Hypothesis RO : rank_ok dim SIZE cells nodes labels epart r L Ln.
Let WF := vm_mesh _ _ _ _ VM.
Let NFL := vm_nonflat _ _ _ _ VM.
Let PR := vm_proper _ _ _ _ VM.
Let Hd : dim = 2 \/ dim = 3 := wm_dim _ _ _ WF.
Let E := lo_cells L.
Definition gl (k : Z) : Z := nthZ 0 Ln k.
Definition gc (c : Z) : Z := nthZ (-1) (lo_cell L) c.
Definition up (F : list Z) : list Z := np_sort (map gl F).

Lemma owned_In g : In g (lo_cell L) <-> iscell cells g /\ owner epart g = r.
Proof. rewrite (ro_cell _ _ _ _ _ _ _ _ _ RO). unfold owned. rewrite filter_In, in_range. unfold iscell. split; intros (A & B); (split; [exact A | lia]). Qed.
Lemma owned_NoDup : NoDup (lo_cell L).
Proof. rewrite (ro_cell _ _ _ _ _ _ _ _ _ RO). unfold owned. apply NoDup_filter, NoDup_range. Qed.
Lemma len_cells : zlen (lo_cells L) = zlen (lo_cell L).
Proof. symmetry. apply (Forall2_nthZ _ 0 [] _ _ (ro_cells _ _ _ _ _ _ _ _ _ RO)). Qed.
Lemma len_vertex : zlen (lo_vertex L) = zlen Ln. Proof. rewrite (ro_vertex _ _ _ _ _ _ _ _ _ RO). apply zlen_map. Qed.
Lemma gc_ok c : iscell E c -> iscell cells (gc c) /\ owner epart (gc c) = r.
Proof. intros Hc. apply owned_In, nthZ_In. unfold iscell, E in Hc. rewrite len_cells in Hc. exact Hc. Qed.
Lemma gc_onto g : iscell cells g -> owner epart g = r -> exists c, iscell E c /\ gc c = g.
Proof. intros H1 H2. assert (HI : In g (lo_cell L)) by (apply owned_In; auto). apply In_nthZ with (d := -1) in HI as (c & Hc & Ec). exists c. split; [unfold iscell, E; rewrite len_cells; exact Hc | exact Ec]. Qed.
Lemma gc_inj c c' : iscell E c -> iscell E c' -> gc c = gc c' -> c = c'.
Proof. intros H H'. unfold iscell, E in *. rewrite len_cells in *. apply nthZ_inj_NoDup; [exact owned_NoDup | assumption | assumption]. Qed.
Lemma gl_inj k k' : 0 <= k < zlen Ln -> 0 <= k' < zlen Ln -> gl k = gl k' -> k = k'.
Proof. apply nthZ_inj_NoDup. exact (ro_nodup _ _ _ _ _ _ _ _ _ RO). Qed.
Lemma row_of_cell c : iscell E c -> map gl (cell E c) = cell cells (gc c) /\ forall k, In k (cell E c) -> 0 <= k < zlen Ln.
Proof.
  intros Hc. unfold iscell, E in Hc. rewrite len_cells in Hc. destruct (proj2 (Forall2_nthZ _ (-1) [] _ _ (ro_cells _ _ _ _ _ _ _ _ _ RO)) c Hc) as (A & B). rewrite Forall_forall in B.
  change (nthZ [] (lo_cells L) c) with (cell E c) in *. change (nthZ (-1) (lo_cell L) c) with (gc c) in A. split; [|exact B]. rewrite <- A. apply map_ext_in. intros k Hk. apply nthZ_dflt. apply B, Hk.
Qed.
Lemma gl_in k c : iscell E c -> 0 <= k < zlen Ln -> In (gl k) (cell cells (gc c)) <-> In k (cell E c).
Proof.
  intros Hc Hk. destruct (row_of_cell c Hc) as (A & B). rewrite <- A. rewrite in_map_iff. split; [|intros H; exists k; auto].
  intros (k' & E1 & H). apply gl_inj in E1; [subst; exact H | apply B; exact H | exact Hk].
Qed.
Lemma map_gl_NoDup F : NoDup F -> (forall k, In k F -> 0 <= k < zlen Ln) -> NoDup (map gl F).
Proof.
  induction 1 as [|x F Nx ND IH]; intros H; [constructor|]. cbn [map]. constructor; [|apply IH; intros k Hk; apply H; right; exact Hk].
  intros HI. apply in_map_iff in HI as (y & E1 & Hy). apply gl_inj in E1; [subst; contradiction | apply H; right; exact Hy | apply H; left; reflexivity].
Qed.
Lemma NoDup_map_gl F : NoDup (map gl F) -> NoDup F. Proof. apply NoDup_map_inv. Qed.
Lemma mesh_E : wf_mesh dim (zlen (lo_vertex L)) E.
Proof.
  constructor; [exact Hd|]. intros row HI. apply In_nthZ with (d := []) in HI as (c & Hc & <-). change (iscell E c) in Hc. destruct (row_of_cell c Hc) as (A & B). destruct (gc_ok c Hc) as (G1 & _).
  destruct (wm_rows _ _ _ WF (cell cells (gc c))) as (HL & ND & _); [apply nthZ_In; exact G1|]. change (nthZ [] E c) with (cell E c). rewrite len_vertex. split; [rewrite <- HL, <- A, zlen_map; reflexivity|]. split; [|exact B].
  rewrite <- A in ND. apply NoDup_map_gl. exact ND.
Qed.
Lemma up_perm F : Permutation (up F) (map gl F). Proof. apply np_sort_perm. Qed.
Lemma in_up x F : In x (up F) -> exists k, gl k = x /\ In k F. Proof. intros H. apply (proj1 (np_sort_In x _)) in H. apply in_map_iff. exact H. Qed.
Lemma up_in k F : In k F -> In (gl k) (up F). Proof. intros H. apply np_sort_In, in_map, H. Qed.
Lemma facet_range c F k : has_facet dim E c F -> In k F -> 0 <= k < zlen Ln.
Proof. intros (Hc & _ & _ & HI) Hk. apply (proj2 (row_of_cell c Hc)), HI, Hk. Qed.
Lemma facet_up c F : has_facet dim E c F -> has_facet dim cells (gc c) (up F).
Proof.
  intros HF. pose proof HF as (Hc & S & HL & HI). destruct (row_of_cell c Hc) as (A & B). split; [apply gc_ok; exact Hc|]. split; [|split].
  - apply np_sort_lt, map_gl_NoDup; [apply sorted_lt_NoDup; exact S | intros k Hk; apply (facet_range c F k HF Hk)].
  - unfold up. rewrite zlen_np_sort, zlen_map. exact HL.
  - intros x Hx. apply in_up in Hx as (k & <- & Hk). rewrite <- A. apply in_map, HI, Hk.
Qed.
Lemma facet_down g G : has_facet dim cells g G -> owner epart g = r -> exists c F, gc c = g /\ has_facet dim E c F /\ G = up F.
Proof.
  intros (Hg & S & HL & HI) Ho. destruct (gc_onto g Hg Ho) as (c & Hc & Ec). destruct (row_of_cell c Hc) as (A & B). rewrite Ec in A.
  destruct (wm_rows _ _ _ mesh_E (cell E c)) as (_ & ND & _); [apply nthZ_In; exact Hc|].
  set (F0 := filter (fun k => mem (gl k) G) (cell E c)). assert (HF0 : forall k, In k F0 <-> In k (cell E c) /\ In (gl k) G) by (intros k; unfold F0; rewrite filter_In, mem_In; tauto).
  assert (N0 : NoDup F0) by (apply NoDup_filter; exact ND).
  assert (EG : up F0 = G).
  { apply map_inj_perm_sorted; [exact S | apply map_gl_NoDup; [exact N0 | intros k Hk; apply B, (proj1 (HF0 k) Hk)]|]. intros x. rewrite in_map_iff. split.
    - intros (k & <- & Hk). apply (proj1 (HF0 k) Hk).
    - intros Hx. assert (HX := HI x Hx). rewrite <- A in HX. apply in_map_iff in HX as (k & E1 & Hk). exists k. split; [exact E1|]. apply HF0. rewrite E1. auto. }
  exists c, (np_sort F0). split; [exact Ec|]. split.
  - split; [exact Hc|]. split; [apply np_sort_lt; exact N0|]. split; [rewrite zlen_np_sort; rewrite <- HL, <- EG; unfold up; rewrite zlen_np_sort, zlen_map; reflexivity|].
    intros k Hk. apply (proj1 (np_sort_In k F0)) in Hk. apply (proj1 (HF0 k) Hk).
  - rewrite <- EG. unfold up. apply np_sort_perm_eq, Permutation_map, Permutation_sym, np_sort_perm.
Qed.
Lemma up_inj F F' c c' : has_facet dim E c F -> has_facet dim E c' F' -> up F = up F' -> F = F'.
Proof.
  intros H H' EU. apply sorted_lt_unique; [exact (proj1 (proj2 H)) | exact (proj1 (proj2 H'))|].
  assert (X : forall F1 F2 c1 c2, has_facet dim E c1 F1 -> has_facet dim E c2 F2 -> up F1 = up F2 -> forall x, In x F1 -> In x F2).
  { intros F1 F2 c1 c2 H1 H2 EE x Hx. assert (HI : In (gl x) (up F1)) by (apply np_sort_In, in_map; exact Hx). rewrite EE in HI. apply in_up in HI as (y & E1 & Hy).
    apply gl_inj in E1; [subst; exact Hy | apply (facet_range c2 F2 y H2 Hy) | apply (facet_range c1 F1 x H1 Hx)]. }
  intros x. split; [apply (X F F' c c' H H' EU) | apply (X F' F c' c H' H (eq_sym EU))].
Qed.
Lemma has_up c F c' : has_facet dim E c F -> iscell E c' -> has_facet dim cells (gc c') (up F) -> has_facet dim E c' F.
Proof.
  intros HF Hc' (_ & _ & _ & HI). split; [exact Hc'|]. destruct HF as (Hc & S & HL & HIF). split; [exact S|]. split; [exact HL|]. intros k Hk.
  apply (gl_in k c' Hc'); [apply (proj2 (row_of_cell c Hc)), HIF, Hk|]. apply HI, np_sort_In, in_map, Hk.
Qed.
Lemma side_up F p : (forall k, In k F -> 0 <= k < zlen Ln) -> side (lo_vertex L) F p = side nodes (map gl F) p.
Proof. intros H. rewrite (ro_vertex _ _ _ _ _ _ _ _ _ RO). apply side_map. exact H. Qed.
Lemma side_sign F : (forall k, In k F -> 0 <= k < zlen Ln) -> exists e : R, (e = 1 \/ e = -1)%R /\ forall p, side (lo_vertex L) F p = (e * side nodes (up F) p)%R.
Proof. intros H. destruct (side_perm nodes (map gl F) (up F) (Permutation_sym (up_perm F))) as (e & He & Ee). exists e. split; [exact He|]. intros p. rewrite (side_up F p H). apply Ee. Qed.
Lemma at_up k : 0 <= k < zlen Ln -> at_node (lo_vertex L) k = at_node nodes (gl k).
Proof. intros Hk. rewrite (ro_vertex _ _ _ _ _ _ _ _ _ RO). unfold at_node at 1. apply (nthZ_map (at_node nodes) 0). exact Hk. Qed.
Lemma label_up k : 0 <= k < zlen Ln -> nthZ 0 (lo_label L) k = nthZ 0 labels (gl k).
Proof. intros Hk. rewrite (ro_label _ _ _ _ _ _ _ _ _ RO). apply (nthZ_map (nthZ 0 labels) 0). exact Hk. Qed.
Lemma map_at_up l : (forall k, In k l -> 0 <= k < zlen Ln) -> map (at_node (lo_vertex L)) l = map (at_node nodes) (map gl l).
Proof. intros H. rewrite map_map. apply map_ext_in. intros k Hk. apply at_up, H, Hk. Qed.

(** halo cells *)
Definition gh (h : Z) : Z := nthZ (-1) (nthZ [] (lo_ext L) h) 0.
Lemma halo_row h : ishalo (lo_ext L) h -> nthZ [] (lo_ext L) h = gh h :: cell cells (gh h) /\ halo_nodes (lo_ext L) h = cell cells (gh h) /\ iscell cells (gh h) /\ owner epart (gh h) <> r /\
  exists c', iscell cells c' /\ owner epart c' = r /\ share_node cells (gh h) c'.
Proof.
  intros Hh. assert (HI : In (nthZ [] (lo_ext L) h) (lo_ext L)) by (apply nthZ_In; exact Hh). apply (ro_ext _ _ _ _ _ _ _ _ _ RO) in HI as (c & Er & Hc & Ho & Hs).
  assert (EG : gh h = c) by (unfold gh; rewrite Er; reflexivity). rewrite EG. split; [exact Er|]. split; [unfold halo_nodes; rewrite Er; reflexivity|]. split; [exact Hc|]. split; [exact Ho | exact Hs].
Qed.
Lemma halo_onto c : iscell cells c -> owner epart c <> r -> (exists c', iscell cells c' /\ owner epart c' = r /\ share_node cells c c') -> exists h, ishalo (lo_ext L) h /\ gh h = c.
Proof.
  intros Hc Ho Hs. assert (HI : In (c :: cell cells c) (lo_ext L)) by (apply (ro_ext _ _ _ _ _ _ _ _ _ RO); exists c; auto). apply In_nthZ with (d := []) in HI as (h & Hh & Er). exists h. split; [exact Hh|]. unfold gh. rewrite Er. reflexivity.
Qed.
Lemma halo_NoDup : NoDup (map gh (range (zlen (lo_ext L)))).
Proof.
  replace (map gh (range (zlen (lo_ext L)))) with (map (hd (-1)) (lo_ext L)); [exact (ro_extnodup _ _ _ _ _ _ _ _ _ RO)|].
  rewrite <- (map_nthZ_range [] (lo_ext L)) at 1. rewrite map_map. apply map_ext_in. intros h Hh. apply in_range in Hh. destruct (halo_row h Hh) as (Er & _). rewrite Er. reflexivity.
Qed.
Lemma no_halo_alone : SIZE = 1 -> lo_ext L = [].
Proof.
  intros E1. destruct (lo_ext L) as [|row l] eqn:EE; [reflexivity|]. exfalso. assert (Hh : ishalo (lo_ext L) 0) by (rewrite EE; unfold ishalo; rewrite zlen_cons; pose proof (zlen_nonneg l); lia).
  destruct (halo_row 0 Hh) as (_ & _ & Hc & Ho & _). destruct (proj2 (vs_owners _ _ _ _ _ _ VS) _ Hc). lia.
Qed.

(** the facets between this rank and others *)
Section WithK.
Context (K : rankdata).
Hypothesis K1 : rk_ext K = lo_ext L.
Hypothesis K2 : rk_node K = lo_node L.
Hypothesis K3 : rk_center K = lo_center L.
Hypothesis K4 : rk_cell K = lo_cell L.
Lemma node_number k : 1 < SIZE -> nthZ 0 (rk_node K) k = gl k.
Proof. intros H. rewrite K2. unfold gl. rewrite (ro_glob _ _ _ _ _ _ _ _ _ RO). replace (SIZE =? 1) with false by lia. reflexivity. Qed.
Lemma halo_several h : ishalo (rk_ext K) h -> 1 < SIZE.
Proof. intros Hh. rewrite K1 in Hh. destruct (Z.eq_dec SIZE 1) as [E1|N]; [|lia]. rewrite (no_halo_alone E1) in Hh. unfold ishalo in Hh. cbn in Hh. lia. Qed.
Lemma cut_iff F h : cut_by K F h <-> ishalo (lo_ext L) h /\ incl (map gl F) (cell cells (gh h)).
Proof.
  unfold cut_by, halo_has. split; intros (A & B).
  - pose proof (halo_several h A) as HS. rewrite K1 in *. destruct (halo_row h A) as (_ & EN & _). rewrite EN in B. split; [exact A|]. intros x Hx. apply B. unfold globals. apply in_map_iff in Hx as (k & <- & Hk). apply in_map_iff. exists k. split; [apply node_number; exact HS | exact Hk].
  - assert (A' : ishalo (rk_ext K) h) by (rewrite K1; exact A). pose proof (halo_several h A') as HS. split; [exact A'|]. rewrite K1. destruct (halo_row h A) as (_ & EN & _). rewrite EN. intros x Hx. apply B. unfold globals in Hx. apply in_map_iff in Hx as (k & <- & Hk). apply in_map_iff. exists k. split; [symmetry; apply node_number; exact HS | exact Hk].
Qed.
Lemma cut_facet c F h : has_facet dim E c F -> cut_by K F h <-> ishalo (lo_ext L) h /\ has_facet dim cells (gh h) (up F).
Proof.
  intros HF. rewrite cut_iff. split; intros (A & B); (split; [exact A|]).
  - destruct (facet_up c F HF) as (_ & S & HL & _). split; [apply halo_row; exact A|]. split; [exact S|]. split; [exact HL|]. intros x Hx. apply B. apply (proj1 (np_sort_In x _)) in Hx. exact Hx.
  - destruct B as (_ & _ & _ & HI). intros x Hx. apply HI, np_sort_In, Hx.
Qed.
(** another cell of the mesh with a facet of this rank is in the rank or is a halo cell *)
Lemma facet_other c F g : has_facet dim E c F -> has_facet dim cells g (up F) ->
  (exists c', has_facet dim E c' F /\ gc c' = g) \/ (exists h, cut_by K F h /\ gh h = g /\ owner epart g <> r).
Proof.
  intros HF Hg. destruct (Z.eq_dec (owner epart g) r) as [Eo|No].
  - left. destruct (gc_onto g (proj1 Hg) Eo) as (c' & Hc' & E1). exists c'. split; [|exact E1]. apply (has_up c F c' HF Hc'). rewrite E1. exact Hg.
  - right. destruct (halo_onto g (proj1 Hg) No) as (h & Hh & E1).
    { destruct (gc_ok c (proj1 HF)) as (G1 & G2). exists (gc c). split; [exact G1|]. split; [exact G2|]. destruct (facet_up c F HF) as (_ & _ & HL & HI). destruct (up F) as [|x U] eqn:EU; [cbn in HL; destruct Hd; lia|].
      exists x. split; [apply (proj2 (proj2 (proj2 Hg))); rewrite ?EU; left; reflexivity | apply HI; left; reflexivity]. }
    exists h. split; [|auto]. apply (cut_facet c F h HF). split; [exact Hh | rewrite E1; exact Hg].
Qed.
Lemma cut_exclusive c F h : has_facet dim E c F -> cut_by K F h -> only_cell dim E c F.
Proof.
  intros HF HC. split; [exact HF|]. intros c' HF'. apply (cut_facet c F h HF) in HC as (Hh & HG). pose proof (halo_row h Hh) as (_ & _ & _ & Ho & _).
  destruct (mesh_conforming dim cells nodes WF PR _ _ _ _ (facet_up c F HF) (facet_up c' F HF') HG) as [E1 | [E1 | E1]].
  - symmetry. apply gc_inj; [exact (proj1 HF) | exact (proj1 HF') | exact E1].
  - exfalso. apply Ho. rewrite <- E1. apply gc_ok. exact (proj1 HF').
  - exfalso. apply Ho. rewrite <- E1. apply gc_ok. exact (proj1 HF).
Qed.
Lemma only_up c F : only_cell dim E c F -> (forall h, ~ cut_by K F h) -> only_cell dim cells (gc c) (up F).
Proof.
  intros (HF & HO) NC. split; [apply facet_up; exact HF|]. intros g Hg. destruct (facet_other c F g HF Hg) as [(c' & HF' & E1) | (h & HC & _)]; [|exfalso; exact (NC h HC)]. rewrite <- E1. f_equal. apply HO. exact HF'.
Qed.
Lemma label_of_facet F : (forall k, In k F -> 0 <= k < zlen Ln) -> face_label (priority dim) (map (nthZ 0 (lo_label L)) F) = face_label (priority dim) (map (nthZ 0 labels) (up F)).
Proof.
  intros H. replace (map (nthZ 0 (lo_label L)) F) with (map (nthZ 0 labels) (map gl F)).
  - apply face_label_perm, Permutation_map, Permutation_sym, up_perm.
  - rewrite map_map. apply map_ext_in. intros k Hk. symmetry. apply label_up, H, Hk.
Qed.

Hypothesis K5 : zlen (rk_info K) = zlen (lo_vertex L) /\ forall k, 0 <= k < zlen (lo_vertex L) -> zlen (nthZ [] (rk_info K) k) = zlen (nthZ [] (rk_hg K) k).
Hypothesis K6 : zlen (rk_hg K) = zlen (lo_vertex L) /\ 0 <= rk_nhg K /\
    forall k e, 0 <= k < zlen (lo_vertex L) -> In e (nthZ [] (rk_hg K) k) -> 0 <= g_last e < rk_nhg K /\ 0 <= g_cell e < zlen (rk_ext K) /\
      exists c F h, has_facet dim (lo_cells L) c F /\ In k F /\ cut_by K F h.
Lemma rank_valid : valid_rank dim SIZE (lo_cells L) (lo_vertex L) (lo_label L) K.
Proof.
  constructor.
  - exact mesh_E.
  - destruct (Z.eq_dec SIZE 1) as [E1|N1].
    + destruct (proj1 (vs_alone _ _ _ _ _ _ VS E1)). rewrite len_cells, (ro_cell _ _ _ _ _ _ _ _ _ RO). pose proof (zlen_nonneg (owned cells epart r)). destruct (Z.eq_dec (zlen (owned cells epart r)) 0) as [E0|]; [|lia]. exfalso.
      pose proof (proj1 (vs_alone _ _ _ _ _ _ VS E1)) as HC. assert (HI : In 0 (lo_cell L)). { apply owned_In. split; [split; lia|]. destruct (proj2 (vs_owners _ _ _ _ _ _ VS) 0); [split; lia | lia]. }
      rewrite (ro_cell _ _ _ _ _ _ _ _ _ RO) in HI. destruct (owned cells epart r); [destruct HI | rewrite zlen_cons in E0; pose proof (zlen_nonneg l); lia].
    + destruct (vs_several _ _ _ _ _ _ VS ltac:(lia)) as (_ & _ & H). destruct (H r Hr) as (a & b & F & Ha & _ & Ho & _). destruct (gc_onto a (proj1 Ha) Ho) as (c & Hc & _). unfold iscell, E in Hc. lia.
  - intros k Hk. rewrite len_vertex in Hk. assert (HI : In (gl k) Ln) by (apply nthZ_In; exact Hk). apply (ro_in _ _ _ _ _ _ _ _ _ RO) in HI as (g & Hg & Ho & HI). destruct (gc_onto g Hg Ho) as (c & Hc & E1). exists c. split; [exact Hc|]. apply (gl_in k c Hc Hk). rewrite E1. exact HI.
  - intros c Hc. destruct (row_of_cell c Hc) as (A & B). unfold nonflat. rewrite (map_at_up (cell (lo_cells L) c) B). change (lo_cells L) with E. rewrite A. apply NFL. apply gc_ok. exact Hc.
  - intros F a b x y Ha Hb Nab Ix Nx Iy Ny. destruct (side_sign F (fun k => facet_range a F k Ha)) as (e & He & Ee). rewrite !Ee. pose proof (proj2 (row_of_cell a (proj1 Ha)) x Ix) as Rx. pose proof (proj2 (row_of_cell b (proj1 Hb)) y Iy) as Ry.
    rewrite !at_up by assumption. assert (P : (side nodes (up F) (at_node nodes (gl x)) * side nodes (up F) (at_node nodes (gl y)) < 0)%R).
    { apply (PR (up F) (gc a) (gc b)); [apply facet_up; exact Ha | apply facet_up; exact Hb | intros EE; apply Nab, (gc_inj a b (proj1 Ha) (proj1 Hb) EE) | apply (gl_in x a (proj1 Ha) Rx); exact Ix | | apply (gl_in y b (proj1 Hb) Ry); exact Iy|].
      - intros HI. apply in_up in HI as (z & E1 & Hz). apply gl_inj in E1; [subst; contradiction | apply (facet_range a F z Ha Hz) | exact Rx].
      - intros HI. apply in_up in HI as (z & E1 & Hz). apply gl_inj in E1; [subst; contradiction | apply (facet_range b F z Hb Hz) | exact Ry]. }
    destruct He as [-> | ->]; lra.
  - split; [rewrite (ro_label _ _ _ _ _ _ _ _ _ RO), len_vertex, zlen_map; reflexivity|]. intros l Hl. rewrite (ro_label _ _ _ _ _ _ _ _ _ RO) in Hl. apply in_map_iff in Hl as (g & <- & Hg). apply (proj2 (vm_labels _ _ _ _ VM)), nthZ_In.
    apply (ro_in _ _ _ _ _ _ _ _ _ RO) in Hg as (c & Hc & _ & HI). rewrite (proj1 (vm_labels _ _ _ _ VM)). apply (wm_rows _ _ _ WF (cell cells c)); [apply nthZ_In; exact Hc | exact HI].
  - intros c F HO NC. rewrite (label_of_facet F (fun k => facet_range c F k (proj1 HO))). apply (vm_boundary _ _ _ _ VM (gc c)). apply only_up; assumption.
  - exact (vs_size _ _ _ _ _ _ VS).
  - intros E1. rewrite K1. apply no_halo_alone. exact E1.
  - intros H1. rewrite K1, K2. pose proof (ro_glob _ _ _ _ _ _ _ _ _ RO) as EG. replace (SIZE =? 1) with false in EG by lia. split; [rewrite <- EG, len_vertex; reflexivity|]. split; [rewrite <- EG; exact (ro_nodup _ _ _ _ _ _ _ _ _ RO)|]. split.
    + intros h Hh. destruct (halo_row h Hh) as (Er & En & Hc & _). rewrite En, Er, zlen_cons. destruct (wm_rows _ _ _ WF (cell cells (gh h))) as (HL & ND & _); [apply nthZ_In; exact Hc|]. split; [lia | exact ND].
    + destruct (vs_several _ _ _ _ _ _ VS H1) as (_ & _ & H). destruct (H r Hr) as (a & b & G & Ha & Hb & Ho & Nb). destruct (facet_down a G Ha Ho) as (c & F & E1 & HF & ->). destruct (facet_other c F b HF Hb) as [(c' & HF' & E2) | (h & HC & _)].
      * exfalso. apply Nb. rewrite <- E2. apply gc_ok. exact (proj1 HF').
      * exists c, F, h. split; [exact HF | exact HC].
  - rewrite K4. split; [symmetry; exact len_cells | exact owned_NoDup].
  - rewrite K3, K1, (ro_center _ _ _ _ _ _ _ _ _ RO). apply zlen_map.
  - intros c F h x HF HC Ix Nx. split; [apply (cut_exclusive c F h HF HC)|]. pose proof HC as HC'. apply (cut_facet c F h HF) in HC' as (Hh & HG). destruct (halo_row h Hh) as (Er & En & Hc & Ho & _).
    destruct (side_sign F (fun k => facet_range c F k HF)) as (e & He & Ee). rewrite !Ee. pose proof (proj2 (row_of_cell c (proj1 HF)) x Ix) as Rx. rewrite at_up by exact Rx.
    rewrite K3, (ro_center _ _ _ _ _ _ _ _ _ RO). rewrite (nthZ_map _ []) by exact Hh. rewrite Er. cbn [tl].
    destruct (opposite_node dim cells nodes WF (gh h) (up F) HG) as (y & _ & Iy & Ny). destruct (centre_same_side dim cells nodes WF NFL (gh h) (up F) y HG Iy Ny) as (k & Hk & Ek & _). rewrite Ek.
    assert (P : (side nodes (up F) (at_node nodes (gl x)) * side nodes (up F) (at_node nodes y) < 0)%R).
    { apply (PR (up F) (gc c) (gh h)); [apply facet_up; exact HF | exact HG | intros EE; apply Ho; rewrite <- EE; apply gc_ok; exact (proj1 HF) | apply (gl_in x c (proj1 HF) Rx); exact Ix | | exact Iy | exact Ny].
      intros HI. apply in_up in HI as (z & E1 & Hz). apply gl_inj in E1; [subst; contradiction | apply (facet_range c F z HF Hz) | exact Rx]. }
    set (s := side nodes (up F) (at_node nodes (gl x))) in *. set (t := side nodes (up F) (at_node nodes y)) in *.
    replace (e * s * (e * (k * t)))%R with ((e * e) * (k * (s * t)))%R by ring. replace (e * e)%R with 1%R by (destruct He as [-> | ->]; ring). assert (0 < k * (- (s * t)))%R by (apply Rmult_lt_0_compat; lra). lra.
  - exact K5.
  - exact K6.
Qed.
End WithK.
End Rank.

(** shorter calls *)
Arguments facet_up {dim} {SIZE} {cells} {nodes} {labels} {epart} {r} {L} {Ln} RO c F _.
Arguments facet_down {dim} {SIZE} {cells} {nodes} {labels} {epart} VM {r} Hr {L} {Ln} RO g G _ _.
Arguments facet_other {dim} {SIZE} {cells} {nodes} {labels} {npart0} {epart} VM VS {r} Hr {L} {Ln} RO K K1 K2 c F g _ _.
Arguments cut_facet {dim} {SIZE} {cells} {nodes} {labels} {npart0} {epart} VS {r} Hr {L} {Ln} RO K K1 K2 c F h _.
Arguments facet_range {dim} {SIZE} {cells} {nodes} {labels} {epart} {r} {L} {Ln} RO c F k _ _.
Arguments gl_inj {dim} {SIZE} {cells} {nodes} {labels} {epart} {r} {L} {Ln} RO k k' _ _ _.
Arguments gl_in {dim} {SIZE} {cells} {nodes} {labels} {epart} {r} {L} {Ln} RO k c _ _.
Arguments gc_ok {dim} {SIZE} {cells} {nodes} {labels} {epart} {r} {L} {Ln} RO c _.
Arguments gc_onto {dim} {SIZE} {cells} {nodes} {labels} {epart} {r} {L} {Ln} RO g _ _.
Arguments gc_inj {dim} {SIZE} {cells} {nodes} {labels} {epart} {r} {L} {Ln} RO c c' _ _ _.
Arguments halo_row {dim} {SIZE} {cells} {nodes} {labels} {epart} {r} {L} {Ln} RO h _.
Arguments halo_onto {dim} {SIZE} {cells} {nodes} {labels} {epart} {r} {L} {Ln} RO c _ _ _.
Arguments halo_NoDup {dim} {SIZE} {cells} {nodes} {labels} {epart} {r} {L} {Ln} RO.
Arguments no_halo_alone {dim} {SIZE} {cells} {nodes} {labels} {npart0} {epart} VS {r} Hr {L} {Ln} RO _.
Arguments node_number {dim} {SIZE} {cells} {nodes} {labels} {epart} {r} {L} {Ln} RO K K2 k _.
Arguments halo_several {dim} {SIZE} {cells} {nodes} {labels} {npart0} {epart} VS {r} Hr {L} {Ln} RO K K1 h _.
Arguments mesh_E {dim} {SIZE} {cells} {nodes} {labels} {epart} VM {r} {L} {Ln} RO.
Arguments at_up {dim} {SIZE} {cells} {nodes} {labels} {epart} {r} {L} {Ln} RO k _.
Arguments label_up {dim} {SIZE} {cells} {nodes} {labels} {epart} {r} {L} {Ln} RO k _.
Arguments map_at_up {dim} {SIZE} {cells} {nodes} {labels} {epart} {r} {L} {Ln} RO l _.
Arguments only_up {dim} {SIZE} {cells} {nodes} {labels} {npart0} {epart} VM VS {r} Hr {L} {Ln} RO K K1 K2 c F _ _.
Arguments label_of_facet {dim} {SIZE} {cells} {nodes} {labels} {epart} {r} {L} {Ln} RO F _.
Arguments rank_valid {dim} {SIZE} {cells} {nodes} {labels} {npart0} {epart} VM VS {r} Hr {L} {Ln} RO K K1 K2 K3 K4 K5 K6.
Arguments has_up {dim} {SIZE} {cells} {nodes} {labels} {epart} {r} {L} {Ln} RO c F c' _ _ _.
Arguments cut_exclusive {dim} {SIZE} {cells} {nodes} {labels} {npart0} {epart} VM VS {r} Hr {L} {Ln} RO K K1 K2 c F h _ _.
Arguments row_of_cell {dim} {SIZE} {cells} {nodes} {labels} {epart} {r} {L} {Ln} RO c _.
Arguments owned_In {dim} {SIZE} {cells} {nodes} {labels} {epart} {r} {L} {Ln} RO g.
Arguments owned_NoDup {dim} {SIZE} {cells} {nodes} {labels} {epart} {r} {L} {Ln} RO.
Arguments up_inj {dim} {SIZE} {cells} {nodes} {labels} {epart} {r} {L} {Ln} RO F F' c c' _ _ _.
Arguments len_vertex {dim} {SIZE} {cells} {nodes} {labels} {epart} {r} {L} {Ln} RO.
Arguments len_cells {dim} {SIZE} {cells} {nodes} {labels} {epart} {r} {L} {Ln} RO.
