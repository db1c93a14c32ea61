(** * Proofs_run39: loops that save, with numbers tot that change from turn to turn (C94). *)
From Coq Require Import String Reals Lra Permutation.
From Verif Require Import Py PyLemmas Model_part Spec_part Model_label Model_conn Spec_conn Model_geom Spec_geom Model_interp Spec_interp Model_bc Spec_bc Model_domain Spec_domain Model_comm Model_parallel Spec_parallel
  Model_run Spec_run Spec_run2 Model_run2 Spec_run3 Model_sw Model_run3 Spec_run4 Model_save Spec_save Model_run6 Spec_run8 Proofs_run38 Spec_run6 Spec_run7 Spec_run9.
Open Scope Z_scope.

Definition kept (T k : Z) : bool := (k =? 1) || (k mod T =? 0).
Fixpoint picked_by (tots : list Z) (k : Z) (l : list field) : list field :=
  match tots, l with T :: tots, x :: l => (if kept T k then [x] else []) ++ picked_by tots (k + 1) l | _, _ => [] end.
Lemma picked_by_filter d : forall tots l k, length tots = length l ->
  picked_by tots k l = map (fun j => nthZ d l (j - k)) (filter (fun j => kept (nthZ 1 tots (j - k)) j) (range2 k (k + zlen l))).
Proof.
  induction tots as [|T tots IH]; intros [|x l] k LL; try discriminate LL.
  - unfold range2, range. replace (k + zlen (@nil field) - k) with 0 by (change (zlen (@nil field)) with 0; lia). reflexivity.
  - cbn [picked_by]. rewrite zlen_cons. pose proof (zlen_nonneg l). rewrite range2_cons by lia. cbn [filter]. rewrite IH by (cbn in LL; lia). replace (k + (zlen l + 1)) with (k + 1 + zlen l) by lia.
    replace (k - k) with 0 by lia. change (nthZ 1 (T :: tots) 0) with T.
    assert (SH : forall j, In j (range2 (k + 1) (k + 1 + zlen l)) -> nthZ 1 tots (j - (k + 1)) = nthZ 1 (T :: tots) (j - k) /\ nthZ d l (j - (k + 1)) = nthZ d (x :: l) (j - k)).
    { intros j Hj. unfold range2 in Hj. apply in_map_iff in Hj as (i & <- & Hi). apply in_range in Hi. unfold nthZ. replace (Z.to_nat (k + 1 + i - k)) with (Datatypes.S (Z.to_nat (k + 1 + i - (k + 1)))) by lia. split; reflexivity. }
    assert (EF : filter (fun j => kept (nthZ 1 tots (j - (k + 1))) j) (range2 (k + 1) (k + 1 + zlen l)) = filter (fun j => kept (nthZ 1 (T :: tots) (j - k)) j) (range2 (k + 1) (k + 1 + zlen l))).
    { apply filter_ext_in. intros j Hj. rewrite (proj1 (SH j Hj)). reflexivity. }
    rewrite EF. assert (EM : forall j, In j (filter (fun j => kept (nthZ 1 (T :: tots) (j - k)) j) (range2 (k + 1) (k + 1 + zlen l))) -> nthZ d l (j - (k + 1)) = nthZ d (x :: l) (j - k)).
    { intros j Hj. apply filter_In in Hj as (Hj & _). exact (proj2 (SH j Hj)). }
    rewrite (map_ext_in _ _ _ EM). destruct (kept T k); [cbn [map app]; f_equal; unfold nthZ; replace (Z.to_nat (k - k)) with O by lia; reflexivity | reflexivity].
Qed.
Lemma picked_by_written {A} (Q : A -> field -> Prop) d tots l flds : length tots = length l -> Forall2 (fun x fld => Q x fld) l flds ->
  Forall2 (fun k fld => Q (nthZ d l (k - 1)) fld) (saving_turns_by tots) (picked_by tots 1 flds).
Proof.
  intros LT FF. assert (LL : length l = length flds) by (clear -FF; induction FF; cbn [length]; congruence). rewrite (picked_by_filter (OnCells (fun _ => 0%R))) by congruence.
  assert (LZ : zlen flds = zlen l) by (unfold zlen; congruence). assert (LZ' : zlen tots = zlen l) by (unfold zlen; congruence). rewrite LZ. unfold saving_turns_by. rewrite LZ'. replace (1 + zlen l) with (zlen l + 1) by lia. unfold kept.
  assert (NP : forall n : nat, (n < length l)%nat -> Q (nth n l d) (nth n flds (OnCells (fun _ => 0%R)))).
  { clear -FF. induction FF as [|x y l m H FF IH]; intros n Hn; [cbn in Hn; lia|]. destruct n as [|n]; [exact H | exact (IH n ltac:(cbn in Hn; lia))]. }
  assert (GEN : forall ks, (forall k, In k ks -> 1 <= k <= zlen l) -> Forall2 (fun k fld => Q (nthZ d l (k - 1)) fld) ks (map (fun k => nthZ (OnCells (fun _ => 0%R)) flds (k - 1)) ks)).
  { induction ks as [|k ks IH]; intros H; cbn [map]; constructor; [|apply IH; intros; apply H; right; assumption]. pose proof (H k (or_introl eq_refl)) as Hk. unfold nthZ. apply NP. unfold zlen in Hk. lia. }
  apply GEN. intros k Hk. apply filter_In in Hk as (Hk & _). unfold range2 in Hk. apply in_map_iff in Hk as (i & <- & Hi). apply in_range in Hi. lia.
Qed.

Section Saving39.
Context (dim SIZE : Z) (cells : list (list Z)) (nodes : list pt) (st : setting).
Hypothesis SV : forall fld values order dt time niter miter F, passed SIZE st fld values -> Permutation order (range SIZE) ->
    exists F' rep, save (on_cells fld) order SIZE st dt time niter miter values F = Ok (F', rep) /\ saved dim SIZE cells nodes fld miter F' /\
      largest cells fld (rp_max rep) /\ rp_niter rep = niter /\ rp_time rep = time /\ rp_dt rep = dt /\
      (1 < SIZE -> fs_pvtu F miter = None -> indexed SIZE fld miter F') /\ (SIZE = 1 -> forall m, fs_pvtu F' m = fs_pvtu F m) /\
      forall m, m <> miter -> fs_pvtu F' m = fs_pvtu F m /\ forall r, fs_vtu F' r m = fs_vtu F r m.
Context (at_node : bool) (ord : Z -> list Z).
Hypothesis PO : forall m, Permutation (ord m) (range SIZE).
Notation directory := (directory dim SIZE cells nodes).
Notation offers := (offers SIZE st at_node).
Context {S : Type} (turn : S -> res (R * R * S)) (var : S -> list variable) (tot : R -> Z) (final : bool) (tfinal : R).
(** turns made *)
Inductive makes : R -> S -> list (R * S) -> R -> S -> Prop :=
| mk_none time s : makes time s [] time s
| mk_turn time s d dt s1 l t s' : (time < tfinal)%R -> turn s = Ok (d, dt, s1) -> makes (time + d)%R s1 l t s' -> makes time s ((d, s1) :: l) t s'.
(** the variable holds these fields when it is read *)
Inductive ready : Z -> list (R * S) -> list field -> Prop :=
| ready_none k : ready k [] []
| ready_turn k d s1 l fld flds : tot d <> 0 \/ k = 1 -> (kept (tot d) k = true -> offers (var s1) fld) -> ready (k + 1) l flds -> ready k ((d, s1) :: l) (fld :: flds).
Lemma saving_makes : forall time s l t s', makes time s l t s' ->
  forall fuel dt k flds L F lf, (length l <= fuel)%nat -> 1 <= k -> ready k l flds -> (final = true -> (tfinal <= t)%R -> offers (var s') lf) -> directory L F ->
  ((tfinal <= t)%R -> exists F', saving_loop fuel turn var tot final at_node ord SIZE st tfinal time dt k (zlen L) s F = Ok (Some (t, s', F')) /\
      directory (L ++ picked_by (map (fun x => tot (fst x)) l) k flds ++ if final then [lf] else []) F') /\
  ((t < tfinal)%R -> length l = fuel -> saving_loop fuel turn var tot final at_node ord SIZE st tfinal time dt k (zlen L) s F = Ok None) /\
  (forall e, (t < tfinal)%R -> (length l < fuel)%nat -> turn s' = Err e -> saving_loop fuel turn var tot final at_node ord SIZE st tfinal time dt k (zlen L) s F = Err e).
Proof.
  intros time s l t s' G. induction G as [time s | time s d dt' s1 l t s' HT ET G IH]; intros fuel dt k flds L F lf HF HK RD FL DI.
  - inversion RD; subst. split; [|split].
    + intros HT. cbn [map picked_by app].
      assert (EX : exists F', (do F <- (if final then save_variable at_node (ord (zlen L)) SIZE st dt time k (zlen L) (var s) F else ret F); ret (Some (time, s, F))) = Ok (Some (time, s, F')) /\ directory (L ++ (if final then [lf] else [])) F').
      { destruct final; [|exists F; rewrite app_nil_r; split; [reflexivity | exact DI]]. destruct (save_next dim SIZE cells nodes st SV at_node ord PO L F (var s) lf dt time k DI (FL eq_refl HT)) as (F' & E' & D'). exists F'. rewrite E'. split; [reflexivity | exact D']. }
      destruct EX as (F' & E' & D'). exists F'. split; [|exact D']. destruct fuel; cbn [saving_loop]; (destruct (Rlt_dec time tfinal); [lra|]); exact E'.
    + intros HT <-. cbn [saving_loop length]. destruct (Rlt_dec time tfinal); [reflexivity | lra].
    + intros e HT HL EE. cbn [length] in HL. destruct fuel as [|fuel]; [lia|]. cbn [saving_loop]. destruct (Rlt_dec time tfinal); [|lra]. rewrite EE. reflexivity.
  - destruct fuel as [|fuel]; [cbn in HF; lia|]. cbn [length] in *. inversion RD as [|? ? ? ? fld flds' TZ OF RD']; subst. cbn [saving_loop map picked_by fst]. destruct (Rlt_dec time tfinal); [|lra]. rewrite ET. cbn [bind fst snd] in *.
    assert (DU : due (tot d) k = Ok (kept (tot d) k)).
    { unfold due, kept. destruct (Z.eqb_spec k 1) as [->|NK]; [reflexivity|]. destruct (Z.eqb_spec (tot d) 0) as [E0|_]; [|reflexivity]. exfalso. destruct TZ as [TZ|TZ]; lia. }
    rewrite DU. cbn [bind]. destruct (kept (tot d) k).
    + destruct (save_next dim SIZE cells nodes st SV at_node ord PO L F (var s1) fld dt' (time + d)%R k DI (OF eq_refl)) as (F1 & E1 & D1). rewrite E1. cbn [bind].
      destruct (IH fuel dt' (k + 1) flds' (L ++ [fld]) F1 lf ltac:(lia) ltac:(lia) RD' FL D1) as (I1 & I2 & I3). rewrite zlen_app in I1, I2, I3. change (zlen [fld]) with 1 in I1, I2, I3. split; [|split].
      * intros HT'. destruct (I1 HT') as (F' & E' & D'). exists F'. split; [exact E'|]. rewrite <- app_assoc in D'. exact D'.
      * intros HT' HL. apply I2; [exact HT' | lia].
      * intros e HT' HL EE. apply I3; [exact HT' | lia | exact EE].
    + cbn [bind]. destruct (IH fuel dt' (k + 1) flds' L F lf ltac:(lia) ltac:(lia) RD' FL DI) as (I1 & I2 & I3). split; [exact I1|]. split; [intros HT' HL; apply I2; [exact HT' | lia] | intros e HT' HL EE; apply I3; [exact HT' | lia | exact EE]].
Qed.
End Saving39.
