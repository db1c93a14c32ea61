(** * Proofs_geom1: the geometry loops compute the pure functions below *)
From Verif Require Import Py PyLemmas Scatter Model_part Model_label Model_conn Spec_conn Proofs_conn1 Proofs_conn2 Proofs_conn3 Model_geom Spec_geom.
From Coq Require Import Permutation Sorting.Sorted ZifyBool Lra.
Open Scope Z_scope.

Lemma for_each_ok {A} (d : A) n F g s0 : zlen s0 = n -> (forall i, 0 <= i < n -> F i (nthZ d s0 i) = Ok (g i)) -> for_each n F s0 = Ok (map g (range n)).
Proof. apply foldM_pointwise. Qed.
Lemma map_range_nth {A B} (d : A) (g : A -> B) l : map (fun i => g (nthZ d l i)) (range (zlen l)) = map g l.
Proof. rewrite <- (map_map (nthZ d l) g), map_nthZ_range. reflexivity. Qed.

Notation V := at_node.
Definition cellgeo2 (vertex : list pt) (r : list Z) : cellgeo :=
  let s k := nthZ 0 r k in let a := V vertex (s 0) in let b := V vertex (s 1) in let c := V vertex (s 2) in
  {| cg_nodes := if Rlt_dec (turn a b c) 0 then [s 0; s 2; s 1] else [s 0; s 1; s 2];
     cg_center := P3 (1/3 * (px a + px b + px c)) (1/3 * (py a + py b + py c)) 0;
     cg_volume := (1/2 * Rabs ((px a - px b) * (py a - py c) - (px a - px c) * (py a - py b)))%R |}.
Definition cellgeo3 (vertex : list pt) (r : list Z) : cellgeo :=
  let s k := nthZ 0 r k in let a := V vertex (s 0) in let b := V vertex (s 1) in let c := V vertex (s 2) in let d := V vertex (s 3) in
  {| cg_nodes := r;
     cg_center := P3 (1/4 * (px a + px b + px c + px d)) (1/4 * (py a + py b + py c + py d)) (1/4 * (pz a + pz b + pz c + pz d));
     cg_volume := (1/6 * Rabs (pdot (psub b a) (pcross (psub c a) (psub d a))))%R |}.
Definition cellgeo_of (dim : Z) := if dim =? 2 then cellgeo2 else cellgeo3.

Section Geo.
Context (dim : Z) (vertex : list pt) (namen : list Z) (nodeid : list (list Z)).
Hypothesis WF : wf_mesh dim (zlen vertex) nodeid.
Hypothesis HN : zlen namen = zlen vertex.

Lemma get_vertex k : 0 <= k < zlen vertex -> get vertex k = Ok (V vertex k).
Proof. apply get_nthZ. Qed.

Lemma compute_cells_ok : compute_cells dim nodeid vertex = Ok (map (cellgeo_of dim vertex) nodeid).
Proof.
  unfold compute_cells. rewrite (for_each_ok (cg0 []) _ _ (fun i => cellgeo_of dim vertex (nthZ [] nodeid i))).
  - rewrite map_range_nth. reflexivity.
  - apply zlen_map.
  - intros i Hi. rewrite (nthZ_map _ []) by exact Hi. set (r := nthZ [] nodeid i).
    destruct (wm_rows _ _ _ WF r) as (HL & _ & Hrng); [apply nthZ_In; exact Hi|]. unfold cellgeo_of.
    destruct (wm_dim _ _ _ WF) as [Ed|Ed]; rewrite Ed in *; cbn [Z.eqb Pos.eqb].
    + destruct (list3 r HL) as (a & b & c & E). rewrite E in *. unfold centervol2. cbn [cg_nodes cg0].
      pose proof (Hrng a ltac:(cbn; auto)). pose proof (Hrng b ltac:(cbn; auto)). pose proof (Hrng c ltac:(cbn; auto)).
      change (get [a; b; c] 0) with (Ok a). change (get [a; b; c] 1) with (Ok b). change (get [a; b; c] 2) with (Ok c). cbn [bind].
      rewrite !get_vertex by assumption. cbn [bind].
      unfold cellgeo2. change (nthZ 0 [a; b; c] 0) with a. change (nthZ 0 [a; b; c] 1) with b. change (nthZ 0 [a; b; c] 2) with c. cbv zeta.
      fold (turn (V vertex a) (V vertex b) (V vertex c)).
      destruct (Rlt_dec (turn (V vertex a) (V vertex b) (V vertex c)) 0); reflexivity.
    + destruct (list4 r HL) as (a & b & c & d & E). rewrite E in *. unfold centervol3. cbn [cg_nodes cg0].
      pose proof (Hrng a ltac:(cbn; auto)). pose proof (Hrng b ltac:(cbn; auto)). pose proof (Hrng c ltac:(cbn; auto)). pose proof (Hrng d ltac:(cbn; auto)).
      change (get [a; b; c; d] 0) with (Ok a). change (get [a; b; c; d] 1) with (Ok b). change (get [a; b; c; d] 2) with (Ok c). change (get [a; b; c; d] 3) with (Ok d). cbn [bind].
      rewrite !get_vertex by assumption. reflexivity.
Qed.

Definition ocells : list (list Z) := map (fun r => cg_nodes (cellgeo_of dim vertex r)) nodeid.

Lemma nodes_perm r : In r nodeid -> Permutation (cg_nodes (cellgeo_of dim vertex r)) r.
Proof.
  intros Hr. destruct (wm_rows _ _ _ WF r Hr) as (HL & _ & _). unfold cellgeo_of. destruct (wm_dim _ _ _ WF) as [Ed|Ed]; rewrite Ed in *; cbn [Z.eqb Pos.eqb].
  - destruct (list3 r HL) as (a & b & c & ->). unfold cellgeo2. cbn [cg_nodes]. change (nthZ 0 [a; b; c] 0) with a. change (nthZ 0 [a; b; c] 1) with b. change (nthZ 0 [a; b; c] 2) with c. cbv zeta.
    destruct (Rlt_dec _ _); [|reflexivity]. apply perm_skip, perm_swap.
  - reflexivity.
Qed.
Lemma zlen_ocells : zlen ocells = zlen nodeid. Proof. apply zlen_map. Qed.
Lemma ocell_perm c : iscell nodeid c -> Permutation (cell ocells c) (cell nodeid c).
Proof. intros Hc. unfold cell, ocells. rewrite (nthZ_map _ []) by exact Hc. apply nodes_perm, nthZ_In, Hc. Qed.
Lemma WFo : wf_mesh dim (zlen vertex) ocells.
Proof.
  split; [apply (wm_dim _ _ _ WF)|]. intros r Hr. apply in_map_iff in Hr as (r0 & <- & Hr0). pose proof (nodes_perm r0 Hr0) as P.
  destruct (wm_rows _ _ _ WF r0 Hr0) as (A & B & C). split; [unfold zlen in *; rewrite (Permutation_length P); exact A|].
  split; [eapply Permutation_NoDup; [symmetry; exact P | exact B]|]. intros k Hk. apply C. eapply Permutation_in; eauto.
Qed.
Lemma iscell_o c : iscell ocells c <-> iscell nodeid c.
Proof. unfold iscell. rewrite zlen_ocells. reflexivity. Qed.
Lemma has_facet_o c F : has_facet dim ocells c F <-> has_facet dim nodeid c F.
Proof.
  unfold has_facet. rewrite iscell_o. split; intros (Hc & A & B & C); (split; [exact Hc|]; split; [exact A|]; split; [exact B|]);
    intros x Hx; (eapply Permutation_in; [|apply C; exact Hx]); [|symmetry]; apply ocell_perm; exact Hc.
Qed.
Lemma conforming_o : conforming dim nodeid -> conforming dim ocells.
Proof. intros H F a b c Ha Hb Hc. rewrite has_facet_o in *. eapply H; eauto. Qed.

(** faces *)
Context (cn : conn).
Hypothesis Hcn : build_faces dim ocells = Ok cn.
Definition cleft (f : Z) : Z := nthZ 0 (nthZ [] (cn_cellid cn) f) 0.
Definition cright (f : Z) : Z := nthZ 0 (nthZ [] (cn_cellid cn) f) 1.
Definition centerc (c : Z) : pt := cg_center (cellgeo_of dim vertex (cell nodeid c)).

Definition raw_normal (F : list Z) : pt :=
  match map (V vertex) F with
  | [a; b] => P3 (py a - py b) (px b - px a) 0
  | [a; b; c] => pscal (1/2) (pcross (psub b a) (psub c a))
  | _ => p0
  end.
Definition mid (F : list Z) : pt :=
  match map (V vertex) F with
  | [a; b] => pscal (1/2) (padd a b)
  | [a; b; c] => pscal (1/3) (padd (padd a b) c)
  | _ => p0
  end.
Definition label (F : list Z) : Z :=
  match map (nthZ 0 namen) F with [a; b] => name2 a b | [a; b; c] => name3 a b c | _ => 0 end.
Definition dot_used (a b : pt) : R := if dim =? 2 then (px a * px b + py a * py b)%R else pdot a b.
Definition facegeo_of (f : Z) : facegeo :=
  let F := nthZ [] (cn_faces cn) f in
  let n := orient_away (raw_normal F) (dot_used (psub (centerc (cleft f)) (mid F)) (raw_normal F)) in
  {| fg_normal := n; fg_mesure := if dim =? 2 then sqrt (px n ^ 2 + py n ^ 2) else sqrt (px n ^ 2 + py n ^ 2 + pz n ^ 2);
     fg_center := mid F; fg_name := if cright f =? -1 then label F else 0 |}.

Lemma face_row f : 0 <= f < zlen (cn_faces cn) ->
  zlen (nthZ [] (cn_faces cn) f) = dim /\ StronglySorted Z.lt (nthZ [] (cn_faces cn) f) /\ forall k, In k (nthZ [] (cn_faces cn) f) -> 0 <= k < zlen vertex.
Proof.
  intros Hf. destruct (c11 dim (zlen vertex) ocells WFo) as (cn' & E & _ & HI & _). rewrite Hcn in E. injection E as <-.
  destruct (proj1 (HI _) (nthZ_In [] _ f Hf)) as (c & Hc & HS & HL & Hincl). split; [exact HL|]. split; [exact HS|].
  intros k Hk. apply (wm_rows _ _ _ WFo (cell ocells c)); [apply nthZ_In; exact Hc | apply Hincl; exact Hk].
Qed.
Lemma cellid_row f : 0 <= f < zlen (cn_faces cn) -> nthZ [] (cn_cellid cn) f = [cleft f; cright f] /\ iscell nodeid (cleft f) /\ zlen (cn_cellid cn) = zlen (cn_faces cn).
Proof.
  intros Hf. destruct (c12 dim (zlen vertex) ocells WFo) as (cn' & E & HL & H). rewrite Hcn in E. injection E as <-.
  destruct (H f Hf) as (a & b & E & (Ha & _) & _). unfold cleft, cright. rewrite E. split; [reflexivity|]. split; [apply iscell_o; exact Ha | exact HL].
Qed.

Lemma compute_faces_ok : compute_faces dim (cn_cellid cn) (cn_faces cn) namen vertex (map cg_center (map (cellgeo_of dim vertex) nodeid))
  = Ok (map facegeo_of (range (zlen (cn_faces cn)))).
Proof.
  unfold compute_faces. apply (for_each_ok fg0); [apply zlen_zeros_like, zlen_nonneg|]. intros f Hf. rewrite nthZ_zeros_like by exact Hf.
  destruct (face_row f Hf) as (HL & _ & Hrng). destruct (cellid_row f Hf) as (Ec & Hc & HLc).
  unfold facegeo_of. set (F := nthZ [] (cn_faces cn) f) in *.
  assert (G0 : get2 (cn_cellid cn) f 0 = Ok (cleft f)) by (rewrite (get2_nthZ 0); [rewrite Ec; reflexivity | lia | rewrite Ec; cbn; lia]).
  assert (G1 : get2 (cn_cellid cn) f 1 = Ok (cright f)) by (rewrite (get2_nthZ 0); [rewrite Ec; reflexivity | lia | rewrite Ec; cbn; lia]).
  assert (GC : get (map cg_center (map (cellgeo_of dim vertex) nodeid)) (cleft f) = Ok (centerc (cleft f))).
  { rewrite map_map. rewrite (get_nthZ p0) by (rewrite zlen_map; exact Hc). rewrite (nthZ_map _ []) by exact Hc. reflexivity. }
  assert (GF : forall j, 0 <= j < dim -> get2 (cn_faces cn) f j = Ok (nthZ 0 F j)) by (intros j Hj; apply get2_nthZ; fold F; lia).
  unfold dot_used. destruct (wm_dim _ _ _ WF) as [Ed|Ed]; rewrite Ed in *; cbn [Z.eqb Pos.eqb].
  - unfold face_info2. rewrite !GF by lia. destruct (list2 F HL) as (a & b & E). rewrite E in *. change (nthZ 0 [a; b] 0) with a. change (nthZ 0 [a; b] 1) with b. cbn [bind].
    pose proof (Hrng a ltac:(cbn; auto)). pose proof (Hrng b ltac:(cbn; auto)). rewrite G1. cbn [bind]. rewrite !get_vertex by assumption. rewrite !(get_nthZ 0) by lia. rewrite G0. cbn [bind]. rewrite GC.
    unfold label, raw_normal, mid. cbn [map]. destruct (cright f =? -1); reflexivity.
  - unfold face_info3. rewrite !GF by lia. destruct (list3 F HL) as (a & b & c & E). rewrite E in *. change (nthZ 0 [a; b; c] 0) with a. change (nthZ 0 [a; b; c] 1) with b. change (nthZ 0 [a; b; c] 2) with c. cbn [bind].
    pose proof (Hrng a ltac:(cbn; auto)). pose proof (Hrng b ltac:(cbn; auto)). pose proof (Hrng c ltac:(cbn; auto)). rewrite G1. cbn [bind]. rewrite !get_vertex by assumption. rewrite !(get_nthZ 0) by lia. rewrite G0. cbn [bind]. rewrite GC.
    unfold label, raw_normal, mid. cbn [map]. destruct (cright f =? -1); reflexivity.
Qed.

Definition out_normal (c f : Z) : pt :=
  let n := fg_normal (facegeo_of f) in
  if Rlt_dec (pdot (psub (centerc c) (fg_center (facegeo_of f))) n) 0 then n else pscal (-1) n.

Lemma faceid_row c : iscell nodeid c -> zlen (nthZ [] (cn_faceid cn) c) = dim + 1 /\ zlen (cn_faceid cn) = zlen nodeid /\
  forall j, 0 <= j < dim + 1 -> 0 <= nthZ 0 (nthZ [] (cn_faceid cn) c) j < zlen (cn_faces cn) /\
    Permutation (nthZ [] (cn_faces cn) (nthZ 0 (nthZ [] (cn_faceid cn) c) j)) (nthZ [] (local_facets dim (cell ocells c)) j).
Proof.
  intros Hc. destruct (c11 dim (zlen vertex) ocells WFo) as (cn' & E & _ & _ & HL & H). rewrite Hcn in E. injection E as <-.
  destruct (H c) as (fs & <- & A & _ & _ & B); [apply iscell_o; exact Hc|]. split; [exact A|]. split; [rewrite HL; apply zlen_ocells | exact B].
Qed.

Lemma create_nf_ok : create_nf (map cg_center (map (cellgeo_of dim vertex) nodeid)) (map fg_center (map facegeo_of (range (zlen (cn_faces cn))))) (cn_faceid cn)
   (map fg_normal (map facegeo_of (range (zlen (cn_faces cn))))) (zlen nodeid) dim
  = Ok (map (fun c => map (out_normal c) (nthZ [] (cn_faceid cn) c)) (range (zlen nodeid))).
Proof.
  unfold create_nf. apply mapM_ok. intros c Hc. apply in_range in Hc. unfold cell_normals.
  rewrite map_map. rewrite (get_nthZ p0) by (rewrite zlen_map; exact Hc). rewrite (nthZ_map _ []) by exact Hc. cbn [bind]. fold (cell nodeid c). fold (centerc c).
  destruct (faceid_row c Hc) as (HL & HLF & Hrow).
  rewrite (mapM_ok _ (fun j => out_normal c (nthZ 0 (nthZ [] (cn_faceid cn) c) j))).
  - rewrite <- HL. rewrite (map_range_nth 0 (out_normal c)). reflexivity.
  - intros j Hj. apply in_range in Hj. destruct (Hrow j Hj) as (Hf & _). rewrite (get2_nthZ 0) by lia. cbn [bind]. set (f := nthZ 0 (nthZ [] (cn_faceid cn) c) j) in *.
    rewrite !map_map, !get_map_range by exact Hf. cbn [bind]. reflexivity.
Qed.

Definition oriented (f : Z) : list Z :=
  let F := nthZ [] (cn_faces cn) f in
  match F with
  | [a; b; c] => if Rlt_dec (pdot (pcross (psub (V vertex b) (V vertex a)) (psub (V vertex c) (V vertex a))) (fg_normal (facegeo_of f))) 0 then [a; c; b] else F
  | _ => F
  end.
Lemma oriente_ok : dim = 3 -> oriente_3dfacenodeid (cn_faces cn) (map fg_normal (map facegeo_of (range (zlen (cn_faces cn))))) vertex
  = Ok (map oriented (range (zlen (cn_faces cn)))).
Proof.
  intros Ed. unfold oriente_3dfacenodeid. apply (for_each_ok []); [reflexivity|]. intros f Hf.
  destruct (face_row f Hf) as (HL & _ & Hrng). rewrite Ed in HL. unfold oriented, orient_face. destruct (list3 _ HL) as (a & b & c & E). rewrite E in *.
  pose proof (Hrng a ltac:(cbn; auto)). pose proof (Hrng b ltac:(cbn; auto)). pose proof (Hrng c ltac:(cbn; auto)).
  change (get [a; b; c] 0) with (Ok a). change (get [a; b; c] 1) with (Ok b). change (get [a; b; c] 2) with (Ok c). cbn [bind].
  rewrite !get_vertex by assumption. cbn [bind]. rewrite map_map, get_map_range by exact Hf. cbn [bind].
  destruct (Rlt_dec _ _); reflexivity.
Qed.
End Geo.

Lemma build_geometry_ok dim vertex namen nodeid : wf_mesh dim (zlen vertex) nodeid -> zlen namen = zlen vertex ->
  exists cn g, build_geometry dim nodeid vertex namen = Ok g /\ build_faces dim (ocells dim vertex nodeid) = Ok cn /\
    ge_conn g = cn /\ ge_cells g = map (cellgeo_of dim vertex) nodeid /\
    ge_faces g = map (facegeo_of dim vertex namen nodeid cn) (range (zlen (cn_faces cn))) /\
    (dim = 2 -> ge_nf g = map (fun c => map (out_normal dim vertex namen nodeid cn c) (nthZ [] (cn_faceid cn) c)) (range (zlen nodeid))) /\
    (dim = 3 -> ge_facenodes g = map (oriented dim vertex namen nodeid cn) (range (zlen (cn_faces cn)))) /\
    (dim = 2 -> ge_facenodes g = cn_faces cn).
Proof.
  intros WF HN. destruct (build_faces_ok dim (zlen vertex) (ocells dim vertex nodeid) (WFo dim vertex nodeid WF)) as (opp & Hcn & _).
  remember {| cn_faces := _ |} as cn eqn:Ecn. clear Ecn. exists cn.
  unfold build_geometry. rewrite (compute_cells_ok dim vertex nodeid WF). cbn [bind].
  rewrite map_map. change (map (fun x => cg_nodes (cellgeo_of dim vertex x)) nodeid) with (ocells dim vertex nodeid). rewrite Hcn. cbn [bind].
  rewrite (compute_faces_ok dim vertex namen nodeid WF HN cn Hcn). cbn [bind].
  destruct (wm_dim _ _ _ WF) as [Ed|Ed].
  - replace (dim =? 2) with true by lia. replace (dim =? 3) with false by lia. rewrite (create_nf_ok dim vertex namen nodeid WF cn Hcn). cbn [bind].
    eexists. split; [reflexivity|]. cbn [ge_conn ge_cells ge_faces ge_nf ge_facenodes]. repeat split. lia.
  - replace (dim =? 2) with false by lia. replace (dim =? 3) with true by lia. cbn [bind]. rewrite (oriente_ok dim vertex namen nodeid WF cn Hcn Ed). cbn [bind].
    eexists. split; [reflexivity|]. cbn [ge_conn ge_cells ge_faces ge_nf ge_facenodes]. repeat split; lia.
Qed.
