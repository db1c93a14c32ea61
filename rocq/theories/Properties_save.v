(** * Properties_save: saved results (C91). *)
From Coq Require Import String Reals Lra Permutation.
From Verif Require Import Py PyLemmas Model_part Spec_part Model_label Model_conn Spec_conn Model_geom Spec_geom Model_domain Spec_domain Model_comm Model_parallel Spec_parallel Properties_parallel Model_save Spec_save Proofs_save.
Open Scope Z_scope.

Definition no_files : files := emptied {| fs_vtu := fun _ _ => None; fs_pvtu := fun _ => None |}.

(** C91.  save_on_cell and save_on_node, on any number of ranks which write their files in any order: the files show the field on the whole mesh, every cell in exactly
    one of them, and rank 0 prints the largest value on the mesh; on several ranks the index file, if it is new, is one document naming all of them; files of other saves do not change. *)
Theorem C91_save : forall f32 dim SIZE cells nodes labels npart0 epart,
  valid_mesh dim cells nodes labels -> valid_split dim SIZE cells nodes npart0 epart ->
  exists st, setup f32 dim SIZE cells nodes labels npart0 epart = Ok st /\
    forall fld values order dt time niter miter F, passed SIZE st fld values -> Permutation order (range SIZE) ->
    exists F' rep, save (on_cells fld) order SIZE st dt time niter miter values F = Ok (F', rep) /\ saved dim SIZE cells nodes fld miter F' /\
      largest cells fld (rp_max rep) /\ rp_niter rep = niter /\ rp_time rep = time /\ rp_dt rep = dt /\
      (1 < SIZE -> fs_pvtu F miter = None -> indexed SIZE fld miter F') /\ (SIZE = 1 -> forall m, fs_pvtu F' m = fs_pvtu F m) /\
      forall m, m <> miter -> fs_pvtu F' m = fs_pvtu F m /\ forall r, fs_vtu F' r m = fs_vtu F r m.
Proof.
  intros f32 dim SIZE cells nodes labels npart0 epart VM VS. destruct (C68_parallel_setup f32 dim SIZE cells nodes labels npart0 epart VM VS) as (st & E & RP & CS & _). exists st. split; [exact E|].
  intros fld values order dt time niter miter F PS PO. destruct (passed_sizes SIZE st fld values PS) as (ws & -> & SZ).
  destruct (save_ok dim SIZE cells nodes labels npart0 epart st VM VS RP (on_cells fld) order dt time niter miter ws F PO SZ) as (F' & top & ES & V & P & M1 & M2).
  eexists F', _. split; [exact ES|]. cbn [rp_max rp_niter rp_time rp_dt]. split; [|split; [|split; [reflexivity|split; [reflexivity|split; [reflexivity|]]]]].
  - apply (saved_ok dim SIZE cells nodes labels npart0 epart st VS RP CS fld ws miter F' PS). intros r Hr. rewrite V. replace ((0 <=? r) && (r <? SIZE) && (miter =? miter)) with true by lia. reflexivity.
  - apply (largest_ok dim SIZE cells nodes labels npart0 epart st VS RP fld ws top PS M1 M2).
  - split; [|split].
    + intros H1 HN. exists (index_text (on_cells fld) SIZE miter). rewrite P. replace ((1 <? SIZE) && (miter =? miter)) with true by lia. rewrite HN. cbn [app]. split; [reflexivity|]. split; [apply index_documents|]. split; [apply index_pieces | apply index_announces].
    + intros H1 m. rewrite P. replace ((1 <? SIZE) && (m =? miter)) with false by lia. reflexivity.
    + intros m Hm. rewrite P. replace ((1 <? SIZE) && (m =? miter)) with false by lia. split; [reflexivity|]. intros r. rewrite V. replace ((0 <=? r) && (r <? SIZE) && (m =? miter)) with false by lia. reflexivity.
Qed.
Print Assumptions C91_save.

(** The order in which the ranks write does not matter. *)
Theorem C91_order : forall f32 dim SIZE cells nodes labels npart0 epart,
  valid_mesh dim cells nodes labels -> valid_split dim SIZE cells nodes npart0 epart ->
  exists st, setup f32 dim SIZE cells nodes labels npart0 epart = Ok st /\
    forall fld values order order' dt time niter miter F, passed SIZE st fld values -> Permutation order (range SIZE) -> Permutation order' (range SIZE) ->
    exists F1 F2 rep, save (on_cells fld) order SIZE st dt time niter miter values F = Ok (F1, rep) /\ save (on_cells fld) order' SIZE st dt time niter miter values F = Ok (F2, rep) /\
      (forall r m, fs_vtu F1 r m = fs_vtu F2 r m) /\ forall m, fs_pvtu F1 m = fs_pvtu F2 m.
Proof.
  intros f32 dim SIZE cells nodes labels npart0 epart VM VS. destruct (C68_parallel_setup f32 dim SIZE cells nodes labels npart0 epart VM VS) as (st & E & RP & CS & _). exists st. split; [exact E|].
  intros fld values order order' dt time niter miter F PS PO PO'. destruct (passed_sizes SIZE st fld values PS) as (ws & -> & SZ).
  destruct (save_ok dim SIZE cells nodes labels npart0 epart st VM VS RP (on_cells fld) order dt time niter miter ws F PO SZ) as (F1 & t1 & E1 & V1 & P1 & A1 & r1 & R1 & I1).
  destruct (save_ok dim SIZE cells nodes labels npart0 epart st VM VS RP (on_cells fld) order' dt time niter miter ws F PO' SZ) as (F2 & t2 & E2 & V2 & P2 & A2 & r2 & R2 & I2).
  assert (t1 = t2) as -> by (apply Rle_antisym; [apply (A2 r1); assumption | apply (A1 r2); assumption]). eexists F1, F2, _. split; [exact E1|]. split; [exact E2|]. split; intros; [rewrite V1, V2 | rewrite P1, P2]; reflexivity.
Qed.
Print Assumptions C91_order.

(** A program that reads the mesh (which empties the directory) and saves any number of times, each time under another number: at its end all the saves can be read. *)
Theorem C91_program : forall f32 dim SIZE cells nodes labels npart0 epart,
  valid_mesh dim cells nodes labels -> valid_split dim SIZE cells nodes npart0 epart ->
  exists st, setup f32 dim SIZE cells nodes labels npart0 epart = Ok st /\
    forall F0 calls flds, Forall2 (call_of SIZE st) calls flds -> NoDup (map ca_miter calls) ->
    exists F, saves SIZE st calls (emptied F0) = Ok F /\
      forall a fld, In (a, fld) (combine calls flds) -> saved dim SIZE cells nodes fld (ca_miter a) F /\ (1 < SIZE -> indexed SIZE fld (ca_miter a) F).
Proof.
  intros f32 dim SIZE cells nodes labels npart0 epart VM VS. destruct (C91_save f32 dim SIZE cells nodes labels npart0 epart VM VS) as (st & E & SV). exists st. split; [exact E|]. intros F0.
  assert (G : forall calls flds F, Forall2 (call_of SIZE st) calls flds -> NoDup (map ca_miter calls) -> (forall a, In a calls -> fs_pvtu F (ca_miter a) = None) ->
    exists F', saves SIZE st calls F = Ok F' /\ (forall m, ~ In m (map ca_miter calls) -> fs_pvtu F' m = fs_pvtu F m /\ forall r, fs_vtu F' r m = fs_vtu F r m) /\
      forall a fld, In (a, fld) (combine calls flds) -> saved dim SIZE cells nodes fld (ca_miter a) F' /\ (1 < SIZE -> indexed SIZE fld (ca_miter a) F')).
  { intros calls flds F H. revert F. induction H as [|a fld calls flds (C1 & C2 & C3) H IH]; intros F ND FR.
    - exists F. split; [reflexivity|]. split; [auto|]. intros a fld [].
    - cbn [map] in ND. inversion ND as [|? ? NI ND']; subst. destruct (SV fld (ca_values a) (ca_order a) (ca_dt a) (ca_time a) (ca_niter a) (ca_miter a) F C3 C2) as (F1 & rep & E1 & S1 & _ & _ & _ & _ & I1 & _ & K1).
      destruct (IH F1 ND') as (F2 & E2 & K2 & S2). { intros b Hb. rewrite (proj1 (K1 (ca_miter b) ltac:(intros X; apply NI; rewrite <- X; apply in_map; exact Hb))). apply FR. right. exact Hb. }
      exists F2. unfold saves in *. cbn [foldM]. rewrite C1, E1. cbn [bind fst]. split; [exact E2|]. destruct (K2 (ca_miter a) NI) as (KP & KV). split.
      + intros m Hm. cbn [map In] in Hm. destruct (K2 m ltac:(tauto)) as (Q1 & Q2). destruct (K1 m ltac:(intros ->; tauto)) as (Q3 & Q4). split; [congruence|]. intros r. rewrite Q2. apply Q4.
      + intros b fb Hb. cbn [combine] in Hb. destruct Hb as [Hb|Hb]; [|exact (S2 b fb Hb)]. injection Hb as <- <-. split.
        * destruct S1 as (parts & L & P & V). exists parts. split; [exact L|]. split; [exact P|]. intros r Hr. rewrite KV. exact (V r Hr).
        * intros HS. destruct (I1 HS (FR a (or_introl eq_refl))) as (l & L1 & L2). exists l. rewrite KP. auto. }
  intros calls flds H ND. destruct (G calls flds (emptied F0) H ND ltac:(reflexivity)) as (F & A & _ & B). exists F. auto.
Qed.
Print Assumptions C91_program.

(** A value that is missing on one rank, or has the wrong length, makes the call fail. *)
Theorem C91_checked : forall f32 dim SIZE cells nodes labels npart0 epart,
  valid_mesh dim cells nodes labels -> valid_split dim SIZE cells nodes npart0 epart ->
  exists st, setup f32 dim SIZE cells nodes labels npart0 epart = Ok st /\
    forall on values order dt time niter miter F r, zlen values = SIZE -> 0 <= r < SIZE ->
      match nthZ None values r with None => True | Some w => zlen w <> if on : bool then zlen (owned cells epart r) else zlen (dm_vertex (domain_of (se_domains st) r)) end ->
      save on order SIZE st dt time niter miter values F = Err ValueError \/ save on order SIZE st dt time niter miter values F = Err AssertionError.
Proof.
  intros f32 dim SIZE cells nodes labels npart0 epart VM VS. destruct (C68_parallel_setup f32 dim SIZE cells nodes labels npart0 epart VM VS) as (st & E & RP & CS & _). exists st. split; [exact E|].
  intros on values order dt time niter miter F r LV Hr HB. unfold save.
  set (f := fun r => do D <- get (se_domains st) r; do v <- get values r; check_value on D v).
  assert (FV : forall x, In x (range SIZE) -> (exists w, f x = Ok w) \/ f x = Err ValueError \/ f x = Err AssertionError).
  { intros x Hx. apply in_range in Hx. unfold f. rewrite (doms dim SIZE cells nodes labels epart st RP x Hx). cbn [bind]. rewrite (get_nthZ None) by lia. cbn [bind]. destruct (nthZ None values x) as [w|]; [|right; left; reflexivity]. cbn [check_value]. destruct (_ =? _); [left; eexists; reflexivity | right; right; reflexivity]. }
  assert (FB : f r = Err ValueError \/ f r = Err AssertionError).
  { unfold f. rewrite (doms dim SIZE cells nodes labels epart st RP r Hr). cbn [bind]. rewrite (get_nthZ None) by lia. cbn [bind]. destruct (nthZ None values r) as [w|]; [|left; reflexivity]. cbn [check_value].
    pose proof (pas dim SIZE cells nodes labels epart st RP r Hr) as PA. destruct (pa_sizes _ _ _ _ _ _ _ PA) as (S1 & _). rewrite <- (pa_cells _ _ _ _ _ _ _ PA) in HB. rewrite S1. replace (zlen w =? _) with false by (symmetry; apply Z.eqb_neq; exact HB). right. reflexivity. }
  assert (G : forall l, (forall x, In x l -> (exists w, f x = Ok w) \/ f x = Err ValueError \/ f x = Err AssertionError) -> In r l -> mapM f l = Err ValueError \/ mapM f l = Err AssertionError).
  { induction l as [|x l IH]; intros H HI; [destruct HI|]. cbn [mapM]. destruct HI as [->|HI]; [destruct FB as [-> | ->]; cbn [bind]; auto|]. destruct (H x (or_introl eq_refl)) as [(w & ->)|[-> | ->]]; cbn [bind]; auto. destruct (IH (fun x H' => H x (or_intror H')) HI) as [-> | ->]; cbn [bind]; auto. }
  destruct (G (range SIZE) FV ltac:(apply in_range; exact Hr)) as [-> | ->]; cbn [bind]; auto.
Qed.
Print Assumptions C91_checked.

(** A property one would expect is false: on several ranks, saving twice under the same number (for example with the default, 0) leaves an index file that consists of two
    documents and names each file twice: it is opened for appending. *)
Theorem C91_same_number_refuted : forall f32 dim SIZE cells nodes labels npart0 epart,
  valid_mesh dim cells nodes labels -> valid_split dim SIZE cells nodes npart0 epart -> 1 < SIZE ->
  exists st, setup f32 dim SIZE cells nodes labels npart0 epart = Ok st /\
    forall F0 a b fa fb, call_of SIZE st a fa -> call_of SIZE st b fb -> ca_miter a = ca_miter b ->
    exists F l, saves SIZE st [a; b] (emptied F0) = Ok F /\ saved dim SIZE cells nodes fb (ca_miter b) F /\ fs_pvtu F (ca_miter b) = Some l /\ documents l = 2 /\ ~ indexed SIZE fb (ca_miter b) F.
Proof.
  intros f32 dim SIZE cells nodes labels npart0 epart VM VS HS. destruct (C68_parallel_setup f32 dim SIZE cells nodes labels npart0 epart VM VS) as (st & E & RP & CS & _). exists st. split; [exact E|].
  intros F0 a b fa fb (A1 & A2 & A3) (B1 & B2 & B3) EM. destruct (passed_sizes SIZE st fa _ A3) as (wa & EA & SA). destruct (passed_sizes SIZE st fb _ B3) as (wb & EB & SB). rewrite EB in B3.
  destruct (save_ok dim SIZE cells nodes labels npart0 epart st VM VS RP (on_cells fa) (ca_order a) (ca_dt a) (ca_time a) (ca_niter a) (ca_miter a) wa (emptied F0) A2 SA) as (F1 & t1 & E1 & V1 & P1 & _).
  destruct (save_ok dim SIZE cells nodes labels npart0 epart st VM VS RP (on_cells fb) (ca_order b) (ca_dt b) (ca_time b) (ca_niter b) (ca_miter b) wb F1 B2 SB) as (F2 & t2 & E2 & V2 & P2 & _).
  exists F2. unfold saves. cbn [foldM]. rewrite A1, EA, E1. cbn [bind fst]. rewrite B1, EB, E2. cbn [bind fst].
  assert (EP : fs_pvtu F2 (ca_miter b) = Some (index_text (on_cells fa) SIZE (ca_miter a) ++ index_text (on_cells fb) SIZE (ca_miter b))).
  { rewrite P2, P1, EM. replace ((1 <? SIZE) && (ca_miter b =? ca_miter b)) with true by lia. reflexivity. }
  exists (index_text (on_cells fa) SIZE (ca_miter a) ++ index_text (on_cells fb) SIZE (ca_miter b)). split; [reflexivity|].
  split; [apply (saved_ok dim SIZE cells nodes labels npart0 epart st VS RP CS fb wb (ca_miter b) F2 B3); intros r Hr; rewrite V2; replace ((0 <=? r) && (r <? SIZE) && (ca_miter b =? ca_miter b)) with true by lia; reflexivity|].
  split; [exact EP|]. assert (D2 : documents (index_text (on_cells fa) SIZE (ca_miter a) ++ index_text (on_cells fb) SIZE (ca_miter b)) = 2) by (rewrite documents_app, !index_documents; reflexivity). split; [exact D2|].
  intros (l & EL & DL & _). rewrite EP in EL. apply (f_equal (fun o => match o with Some k => documents k | None => 0 end)) in EL. cbv beta iota in EL. rewrite D2, DL in EL. discriminate EL.
Qed.
Print Assumptions C91_same_number_refuted.

(** Instance: two triangles on two ranks, the field x -> 1, 2 on the cells. *)
Theorem C91_square : exists st F rep, setup (fun x => x) 2 2 Properties_geom.sq Properties_geom.sq_v [4; 4; 3; 3] [0; 0; 1; 1] [0; 1] = Ok st /\
  save true [1; 0] 2 st 0 0 0 7 [Some [1]; Some [2]]%R no_files = Ok (F, rep) /\ saved 2 2 Properties_geom.sq Properties_geom.sq_v (OnCells (fun c => IZR (c + 1))) 7 F /\ rp_max rep = 2%R /\ indexed 2 (OnCells (fun c => IZR (c + 1))) 7 F.
Proof.
  destruct (C91_save (fun x => x) 2 2 Properties_geom.sq Properties_geom.sq_v [4; 4; 3; 3] [0; 0; 1; 1] [0; 1] C68_square C68_square_split) as (st & E & S).
  destruct (C68_parallel_setup (fun x => x) 2 2 Properties_geom.sq Properties_geom.sq_v [4; 4; 3; 3] [0; 0; 1; 1] [0; 1] C68_square C68_square_split) as (st' & E' & RP & _). rewrite E in E'. injection E' as <-.
  assert (EL : forall r, 0 <= r < 2 -> dm_loctoglob (domain_of (se_domains st) r) = [r]). { intros r Hr. rewrite (pa_cells _ _ _ _ _ _ _ (rp_part _ _ _ _ _ _ _ RP r Hr)). assert (r = 0 \/ r = 1) as [-> | ->] by lia; reflexivity. }
  assert (PS : passed 2 st (OnCells (fun c => IZR (c + 1))) [Some [1]; Some [2]]%R).
  { exists [[1]; [2]]%R. split; [reflexivity|]. split; [reflexivity|]. intros r Hr. rewrite (EL r Hr). split; [assert (r = 0 \/ r = 1) as [-> | ->] by lia; reflexivity|]. intros c Hc. unfold iscell_of, gcell in *. rewrite (EL r Hr) in *. change (zlen [r]) with 1 in Hc. assert (c = 0) as -> by lia. assert (r = 0 \/ r = 1) as [-> | ->] by lia; reflexivity. }
  destruct (S (OnCells (fun c => IZR (c + 1))) [Some [1]; Some [2]]%R [1; 0] 0%R 0%R 0 7 no_files PS) as (F & rep & A & B & (C1 & c & Hc & C2) & _ & _ & _ & D & _); [change (range 2) with [0; 1]; apply perm_swap|].
  exists st, F, rep. split; [exact E|]. split; [exact A|]. split; [exact B|]. split; [|exact (D ltac:(lia) eq_refl)].
  assert (H1 : (IZR (1 + 1) <= rp_max rep)%R) by (apply C1; unfold iscell; change (zlen Properties_geom.sq) with 2; lia). unfold iscell in Hc. change (zlen Properties_geom.sq) with 2 in Hc. assert (c = 0 \/ c = 1) as [-> | ->] by lia; cbn in C2, H1; lra.
Qed.
