(** * Proofs_periodic3: C65 (shift) and the failures of C63 *)
From Coq Require Import Reals Lra.
From Verif Require Import Py PyLemmas Model_part Model_label Model_conn Model_geom Model_halo Model_periodic Spec_geom Spec_interp Spec_periodic
  Proofs_label Proofs_conn1 Proofs_conn3 Proofs_interp1 Proofs_bc Proofs_periodic Proofs_periodic2.
Open Scope Z_scope.

Section Shift.
Context (f32 : R -> R) (I : pinput) (n nn : Z) (name nodename : list Z) (cellid : list (list Z)) (ghost : list (list nodeghost)).
Context (WF : wf_periodic n nn I cellid ghost name nodename).
Let cell (f : Z) : Z := cell_of cellid f.

Lemma run_absent l s : (forall a, In a (map fst l) -> not_periodic name nodename a) -> run_dirs f32 I name nodename l s = Ok s.
Proof.
  revert s. induction l as [|(b & jl) l IH]; intros s H; unfold run_dirs; cbn [foldM]; [reflexivity|]. destruct WF. rewrite direction_absent; [| apply H; left; reflexivity | lia | lia]. cbn [bind]. apply IH. intros; apply H; right; assumption.
Qed.
Lemma run_only a l : forall s, NoDup (map fst l) -> In a (map fst l) -> (forall b, In b (map fst l) -> b <> a -> not_periodic name nodename b) ->
  exists jl, run_dirs f32 I name nodename l s = direction f32 I a jl (where_eq name (first_label a)) (where_eq name (second_label a)) (where_eq nodename (first_label a)) (where_eq nodename (second_label a)) s.
Proof.
  induction l as [|(b & jl) l IH]; intros s ND Ha HO; [destruct Ha|]. cbn [map fst] in *. apply NoDup_cons_iff in ND. destruct ND as (Nb & ND). destruct Ha as [->|Ha].
  - exists jl. unfold run_dirs. cbn [foldM]. destruct (direction f32 I a jl _ _ _ _ s) as [s1|e]; cbn [bind]; [|reflexivity]. apply run_absent. intros c Hc. apply HO; [right; exact Hc | intros ->; contradiction].
  - destruct (IH s ND Ha) as (jl' & E); [intros; apply HO; [right; assumption | assumption]|]. exists jl'. rewrite <- E. unfold run_dirs at 1. cbn [foldM]. destruct WF. rewrite direction_absent; [reflexivity | | lia | lia]. apply HO; [left; reflexivity | intros ->; contradiction].
Qed.

Lemma shift_ok a L dim : dim = 2 \/ dim = 3 -> In a (axes dim) -> periodic_axis f32 I name nodename a L -> (forall b, In b (axes dim) -> b <> a -> not_periodic name nodename b) ->
  (forall f f', labelled name (low_label a) f -> labelled name (high_label a) f' -> cell f <> cell f') ->
  exists T, update_periodic f32 dim n nn I cellid ghost name nodename = Ok T /\ zlen (pt_shift T) = n /\
  forall c, 0 <= c < n ->
    ((exists f, labelled name (first_label a) f /\ beside I (cell f) c) -> nthZ vzero (pt_shift T) c = set_coord a vzero L) /\
    (~ (exists f, labelled name (first_label a) f /\ beside I (cell f) c) -> (exists f, labelled name (second_label a) f /\ beside I (cell f) c) -> nthZ vzero (pt_shift T) c = set_coord a vzero (- L)) /\
    (~ (exists f, labelled name (first_label a) f /\ beside I (cell f) c) -> ~ (exists f, labelled name (second_label a) f /\ beside I (cell f) c) -> nthZ vzero (pt_shift T) c = vzero).
Proof.
  intros Hd Ha PA HO NB. pose proof (start_inv I n nn name nodename cellid ghost WF) as SI.
  destruct (run_only a (dirs dim) (start n nn cellid ghost)) as (jl & ER).
  { rewrite dirs_axes. unfold axes. destruct (dim =? 3); repeat constructor; cbn; intuition discriminate. }
  { rewrite dirs_axes; exact Ha. } { rewrite dirs_axes; exact HO. }
  destruct (step_periodic f32 I n nn name nodename cellid ghost WF a jl L _ PA SI) as (s' & E & SR & s1 & s2 & (cp1 & cp2 & D1 & D2 & HC) & ES).
  rewrite E in ER. eexists. split; [apply (update_periodic_run f32 I n nn name nodename cellid ghost dim s' Hd ER)|]. cbn [pt_shift].
  split; [apply (sr_inv _ _ _ _ _ _ _ _ _ _ _ SR)|]. rewrite ES.
  assert (InF : forall l f, In f (where_eq name l) <-> labelled name l f) by (intros; apply In_where).
  set (nf := zlen name) in *. destruct WF. destruct SI as [SZ HR _ _].
  assert (C0 : forall f, 0 <= f < nf -> c0 (start n nn cellid ghost) f = cell f) by (intros f Hf; apply HR; exact Hf).
  assert (CR : forall f, 0 <= f < nf -> 0 <= cell f < n) by (intros f Hf; apply wp_rows; exact Hf).
  assert (C1 : forall f, 0 <= f < nf -> c0 s1 f = cell f).
  { intros f Hf. destruct (fd_cellid _ _ _ _ _ _ _ _ _ D1 f Hf) as (A & B). rewrite <- (C0 f Hf). unfold c0, cell_of. destruct (in_dec Z.eq_dec f (where_eq name (first_label a))) as [Y|Y]; [rewrite (A Y) | rewrite (B Y)]; reflexivity. }
  assert (N1 : forall b x, 0 <= b < n -> In x (nthZ [] (ps_nid s1) b) <-> exists g g', pair2 a L (pi_fcenter I) name g g' /\ cell g = b /\ beside I (cell g') x).
  { intros b x Hb. rewrite (fd_nid _ _ _ _ _ _ _ _ _ D1) by exact Hb. cbn [start ps_nid]. rewrite nthZ_zeros_like by lia. cbn [app]. rewrite in_flat_map. split.
    - intros (g & Hg & Hx). apply filter_In in Hg. destruct Hg as (Hg & Eg). apply Z.eqb_eq in Eg. apply InF in Hg. pose proof (proj1 Hg) as R1. destruct (paired_first _ _ _ _ _ _ (pa_faces _ _ _ _ _ _ PA) Hg) as (g' & P). destruct (HC _ _ P) as (E1 & _).
      exists g, g'. rewrite C0 in Eg by exact R1. split; [exact P|]. split; [exact Eg|]. unfold beside. rewrite <- C0, <- E1; [exact Hx|]. apply pair2_labels in P. apply P.
    - intros (g & g' & P & Eg & Hx). destruct (HC _ _ P) as (E1 & _). destruct (pair2_labels _ _ _ _ _ _ P) as (P1 & P2). exists g. split; [apply filter_In; split; [apply InF; exact P1 | apply Z.eqb_eq; rewrite C0; [exact Eg | apply P1]]|]. rewrite E1, C0; [exact Hx | apply P2]. }
  assert (T1 : forall c, (exists f, In f (where_eq name (first_label a)) /\ In c (nthZ [] (ps_nid s1) (c0 (start n nn cellid ghost) f))) <-> exists f, labelled name (second_label a) f /\ beside I (cell f) c).
  { intros c. split.
    - intros (f & Hf & Hc). apply InF in Hf. rewrite C0 in Hc by apply Hf. apply N1 in Hc; [|apply CR; apply Hf]. destruct Hc as (g & g' & P & _ & Hx). exists g'. split; [apply (pair2_labels _ _ _ _ _ _ P) | exact Hx].
    - intros (g' & Hg' & Hx). destruct (paired_second _ _ _ _ _ _ (pa_faces _ _ _ _ _ _ PA) Hg') as (g & P). destruct (pair2_labels _ _ _ _ _ _ P) as (P1 & P2). exists g. split; [apply InF; exact P1|]. rewrite C0 by apply P1. apply N1; [apply CR; apply P1|]. exists g, g'. auto. }
  assert (NB' : forall f f', labelled name (first_label a) f -> labelled name (second_label a) f' -> cell f <> cell f').
  { intros f f' H1 H2. destruct a; cbn in *; [apply NB; assumption | intros X; symmetry in X; revert X; apply NB; assumption | intros X; symmetry in X; revert X; apply NB; assumption]. }
  assert (N2 : forall f' x, labelled name (second_label a) f' -> In x (nthZ [] (ps_nid s2) (cell f')) <-> exists g g', pair2 a L (pi_fcenter I) name g g' /\ cell g' = cell f' /\ beside I (cell g) x).
  { intros f' x Hf'. assert (Hb : 0 <= cell f' < n) by (apply CR; apply Hf'). rewrite (fd_nid _ _ _ _ _ _ _ _ _ D2) by exact Hb. rewrite in_app_iff, in_flat_map. split.
    - intros [H|(g & Hg & Hx)].
      + apply N1 in H; [|exact Hb]. destruct H as (g & g' & P & Eg & _). destruct (NB' g f'); [apply (pair2_labels _ _ _ _ _ _ P) | exact Hf' | exact Eg].
      + apply filter_In in Hg. destruct Hg as (Hg & Eg). apply Z.eqb_eq in Eg. apply InF in Hg. destruct (paired_second _ _ _ _ _ _ (pa_faces _ _ _ _ _ _ PA) Hg) as (g0 & P). destruct (HC _ _ P) as (_ & E2).
        exists g0, g. rewrite C1 in Eg by apply Hg. split; [exact P|]. split; [exact Eg|]. unfold beside. rewrite <- C0, <- E2; [exact Hx|]. apply pair2_labels in P. apply P.
    - intros (g & g' & P & Eg & Hx). right. destruct (HC _ _ P) as (_ & E2). destruct (pair2_labels _ _ _ _ _ _ P) as (P1 & P2). exists g'. split; [apply filter_In; split; [apply InF; exact P2 | apply Z.eqb_eq; rewrite C1; [exact Eg | apply P2]]|]. rewrite E2, C0; [exact Hx | apply P1]. }
  assert (T2 : forall c, (exists f, In f (where_eq name (second_label a)) /\ In c (nthZ [] (ps_nid s2) (c0 s1 f))) <-> exists f, labelled name (first_label a) f /\ beside I (cell f) c).
  { intros c. split.
    - intros (f & Hf & Hc). apply InF in Hf. rewrite C1 in Hc by apply Hf. apply N2 in Hc; [|exact Hf]. destruct Hc as (g & g' & P & _ & Hx). exists g. split; [apply (pair2_labels _ _ _ _ _ _ P) | exact Hx].
    - intros (g & Hg & Hx). destruct (paired_first _ _ _ _ _ _ (pa_faces _ _ _ _ _ _ PA) Hg) as (g' & P). destruct (pair2_labels _ _ _ _ _ _ P) as (P1 & P2). exists g'. split; [apply InF; exact P2|]. rewrite C1 by apply P2. apply N2; [exact P2|]. exists g, g'. auto. }
  intros c Hc. destruct (fd_shift _ _ _ _ _ _ _ _ _ D1 c Hc) as (A1 & B1). destruct (fd_shift _ _ _ _ _ _ _ _ _ D2 c Hc) as (A2 & B2).
  assert (S0 : nthZ vzero (ps_shift (start n nn cellid ghost)) c = vzero) by (cbn [start ps_shift]; change p0 with vzero; rewrite nthZ_zeros_like by lia; reflexivity).
  assert (S1 : ((exists f, labelled name (second_label a) f /\ beside I (cell f) c) -> nthZ vzero (ps_shift s1) c = set_coord a vzero (- L)) /\ (~ (exists f, labelled name (second_label a) f /\ beside I (cell f) c) -> nthZ vzero (ps_shift s1) c = vzero)).
  { split; intros H; [rewrite A1 by (apply T1; exact H); rewrite S0; f_equal; ring | rewrite B1 by (intro; apply H; apply T1; assumption); exact S0]. }
  split; [|split].
  - intros H. rewrite A2 by (apply T2; exact H). destruct (classic_touch (fun f => In c (nthZ [] (ps_nid s1) (c0 (start n nn cellid ghost) f))) (where_eq name (first_label a)) (fun f => in_dec Z.eq_dec c _)) as [W|W].
    + rewrite (proj1 S1) by (apply T1; exact W). destruct a; reflexivity.
    + rewrite (proj2 S1) by (intro; apply W; apply T1; assumption). reflexivity.
  - intros H H'. rewrite B2 by (intro; apply H; apply T2; assumption). apply S1; exact H'.
  - intros H H'. rewrite B2 by (intro; apply H; apply T2; assumption). apply S1; exact H'.
Qed.

(** ** failures *)
Lemma faces_fail inside a d sh dict s f rest : 0 <= f < zlen (pi_fcenter I) -> (forall v, ~ In (key_moved f32 inside a d (nthZ vzero (pi_fcenter I) f), v) dict) ->
  foldM (per_face f32 I dict inside a d sh) (f :: rest) s = Err KeyError.
Proof. intros Hf H. cbn [foldM]. unfold per_face at 1. rewrite (get_nthZ vzero) by exact Hf. cbn [bind]. rewrite kget_none by exact H. reflexivity. Qed.

Lemma direction_fail a L jl s : reaches a L (pi_vertex I) -> reaches a L (pi_fcenter I) -> inv n nn name cellid s ->
  (exists f, labelled name (first_label a) f) ->
  (forall f g, labelled name (first_label a) f -> labelled name (second_label a) g ->
     key_moved f32 (match a with AX => true | _ => false end) a (disp a L) (nthZ vzero (pi_fcenter I) f) <> key_of f32 (nthZ vzero (pi_fcenter I) g)) ->
  direction f32 I a jl (where_eq name (first_label a)) (where_eq name (second_label a)) (where_eq nodename (first_label a)) (where_eq nodename (second_label a)) s = Err KeyError.
Proof.
  intros RV RF [SZ HR _ _] (f0 & Hf0) H. destruct WF.
  assert (InF : forall l f, In f (where_eq name l) <-> labelled name l f) by (intros; apply In_where).
  assert (Fd : forall l, face_dict f32 I (ps_cellid s) (where_eq name l) = Ok (rev (map (fun i => (key_of f32 (nthZ vzero (pi_fcenter I) i), cell_of (ps_cellid s) i)) (where_eq name l)))).
  { intros l. apply face_dict_ok. intros i Hi. apply InF in Hi. destruct Hi as (Hi & _). rewrite (sz_cellid _ _ _ SZ). destruct (HR i Hi) as (E & _). lia. }
  unfold direction. rewrite !Fd. cbn [bind]. rewrite (max_coord_ok a L _ RV), (max_coord_ok a L _ RF). cbn [bind]. fold (disp a L).
  destruct (where_eq name (first_label a)) as [|f rest] eqn:E; [apply InF in Hf0; rewrite E in Hf0; destruct Hf0|].
  assert (Hf : labelled name (first_label a) f) by (apply InF; rewrite E; left; reflexivity).
  rewrite faces_fail; [reflexivity | destruct Hf; lia|]. intros v Hv. rewrite <- in_rev in Hv. apply in_map_iff in Hv. destruct Hv as (g & Eg & Hg). apply InF in Hg. injection Eg as Eg _. apply (H f g Hf Hg). symmetry. exact Eg.
Qed.

Lemma update_fail a L dim : dim = 2 \/ dim = 3 -> In a (axes dim) -> reaches a L (pi_vertex I) -> reaches a L (pi_fcenter I) ->
  (forall b, In b (axes dim) -> b <> a -> not_periodic name nodename b) -> (exists f, labelled name (first_label a) f) ->
  (forall f g, labelled name (first_label a) f -> labelled name (second_label a) g ->
     key_moved f32 (match a with AX => true | _ => false end) a (disp a L) (nthZ vzero (pi_fcenter I) f) <> key_of f32 (nthZ vzero (pi_fcenter I) g)) ->
  update_periodic f32 dim n nn I cellid ghost name nodename = Err KeyError.
Proof.
  intros Hd Ha RV RF HO HF HK. pose proof (start_inv I n nn name nodename cellid ghost WF) as SI.
  destruct (run_only a (dirs dim) (start n nn cellid ghost)) as (jl & ER).
  { rewrite dirs_axes. unfold axes. destruct (dim =? 3); repeat constructor; cbn; intuition discriminate. }
  { rewrite dirs_axes; exact Ha. } { rewrite dirs_axes; exact HO. }
  rewrite (direction_fail a L jl _ RV RF SI HF HK) in ER. unfold update_periodic. unfold run_dirs, dirs, start in ER.
  destruct Hd as [-> | ->]; cbn [Z.eqb Pos.eqb foldM negb first_label second_label] in ER |- *.
  - destruct (direction f32 I AX _ _ _ _ _ _) as [s1|e]; cbn [bind] in *; [|exact (f_equal (fun r => match r with Ok _ => Err KeyError | Err e => Err e end) ER)].
    destruct (direction f32 I AY _ _ _ _ _ _) as [s2|e]; cbn [bind] in *; [discriminate|]. congruence.
  - destruct (direction f32 I AX _ _ _ _ _ _) as [s1|e]; cbn [bind] in *; [|congruence].
    destruct (direction f32 I AY _ _ _ _ _ _) as [s2|e]; cbn [bind] in *; [|congruence]. destruct (direction f32 I AZ _ _ _ _ _ _) as [s3|e]; cbn [bind] in *; [discriminate | congruence].
Qed.
End Shift.
