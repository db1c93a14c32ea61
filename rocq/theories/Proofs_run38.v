(** * Proofs_run38: loops that save (C93). *)
From Coq Require Import String Reals Lra Permutation.
From Verif Require Import Py PyLemmas Model_part Spec_part Model_label Model_conn Spec_conn Model_geom Spec_geom Model_interp Spec_interp Model_bc Spec_bc Model_domain Spec_domain Model_comm Model_parallel Spec_parallel
  Model_run Spec_run Spec_run2 Model_run2 Spec_run3 Model_sw Model_run3 Spec_run4 Model_save Spec_save Model_run6 Spec_run8.
Open Scope Z_scope.

(** the fields of the turns with a save, [k] being the number of the first *)
Fixpoint picked (T k : Z) (l : list field) : list field :=
  match l with [] => [] | x :: l => (if (k =? 1) || (k mod T =? 0) then [x] else []) ++ picked T (k + 1) l end.
Lemma range2_cons a b : a < b -> range2 a b = a :: range2 (a + 1) b.
Proof.
  intros H. unfold range2, range. replace (Z.to_nat (b - a)) with (Datatypes.S (Z.to_nat (b - (a + 1)))) by lia. cbn [seq map]. rewrite <- seq_shift, !map_map. f_equal; [lia|]. apply map_ext. intros n. lia.
Qed.
Lemma picked_filter d T : forall l k, picked T k l = map (fun j => nthZ d l (j - k)) (filter (fun k => (k =? 1) || (k mod T =? 0)) (range2 k (k + zlen l))).
Proof.
  induction l as [|x l IH]; intros k.
  - unfold range2, range. replace (k + zlen (@nil field) - k) with 0 by (change (zlen (@nil field)) with 0; lia). reflexivity.
  - cbn [picked]. rewrite zlen_cons. pose proof (zlen_nonneg l). rewrite range2_cons by lia. cbn [filter]. rewrite IH. replace (k + (zlen l + 1)) with (k + 1 + zlen l) by lia.
    assert (EM : forall j, In j (filter (fun k => (k =? 1) || (k mod T =? 0)) (range2 (k + 1) (k + 1 + zlen l))) -> nthZ d l (j - (k + 1)) = nthZ d (x :: l) (j - k)).
    { intros j Hj. apply filter_In in Hj as (Hj & _). unfold range2 in Hj. apply in_map_iff in Hj as (i & <- & Hi). apply in_range in Hi. unfold nthZ. replace (Z.to_nat (k + 1 + i - k)) with (Datatypes.S (Z.to_nat (k + 1 + i - (k + 1)))) by lia. reflexivity. }
    rewrite (map_ext_in _ _ _ EM). destruct (_ || _); [cbn [map app]; f_equal; unfold nthZ; replace (Z.to_nat (k - k)) with O by lia; reflexivity | reflexivity].
Qed.

Lemma got {A} (d : A) l r x : get l r = Ok x -> 0 <= r -> x = nthZ d l r.
Proof.
  intros E Hr. unfold get in E. replace (r <? 0) with false in E by lia. cbv zeta in E. replace (r <? 0) with false in E by lia. destruct (nth_error l (Z.to_nat r)) as [y|] eqn:EE; [|discriminate E]. injection E as <-. unfold nthZ. symmetry. apply nth_error_nth. exact EE.
Qed.

Section Saving.
Context (dim SIZE : Z) (cells : list (list Z)) (nodes : list pt) (st : setting).
Hypothesis SV : forall fld values order dt time niter miter F, passed SIZE st fld values -> Permutation order (range SIZE) ->
    exists F' rep, save (on_cells fld) order SIZE st dt time niter miter values F = Ok (F', rep) /\ saved dim SIZE cells nodes fld miter F' /\
      largest cells fld (rp_max rep) /\ rp_niter rep = niter /\ rp_time rep = time /\ rp_dt rep = dt /\
      (1 < SIZE -> fs_pvtu F miter = None -> indexed SIZE fld miter F') /\ (SIZE = 1 -> forall m, fs_pvtu F' m = fs_pvtu F m) /\
      forall m, m <> miter -> fs_pvtu F' m = fs_pvtu F m /\ forall r, fs_vtu F' r m = fs_vtu F r m.
Context (at_node : bool) (ord : Z -> list Z).
Hypothesis PO : forall m, Permutation (ord m) (range SIZE).
Notation directory := (directory dim SIZE cells nodes).
(** the variable holds the field, where it is read for saving *)
Definition offers (l : list variable) (fld : field) : Prop := exists vals, value_of at_node l = Ok vals /\ passed SIZE st fld vals /\ on_cells fld = negb at_node.
Lemma save_next L F l fld dt time niter : directory L F -> offers l fld -> exists F', save_variable at_node (ord (zlen L)) SIZE st dt time niter (zlen L) l F = Ok F' /\ directory (L ++ [fld]) F'.
Proof.
  intros DI (vals & EV & PS & ON). destruct (SV fld vals (ord (zlen L)) dt time niter (zlen L) F PS (PO _)) as (F' & rep & ES & SD & _ & _ & _ & _ & IX & _ & OT). pose proof (zlen_nonneg L) as LN.
  exists F'. unfold save_variable. rewrite EV. cbn [bind]. rewrite <- ON, ES. split; [reflexivity|]. intros m. rewrite zlen_app. change (zlen [fld]) with 1. split.
  - intros Hm. cbv zeta. destruct (Z.eq_dec m (zlen L)) as [->|NE].
    + rewrite nthZ_app_r by (change (zlen [fld]) with 1; lia). replace (zlen L - zlen L) with 0 by lia. change (nthZ (OnCells (fun _ => 0%R)) [fld] 0) with fld. split; [exact SD|]. intros HS. apply IX; [exact HS|]. apply (proj2 (DI (zlen L))). lia.
    + rewrite nthZ_app_l by lia. destruct (OT m NE) as (O1 & O2). destruct (proj1 (DI m) ltac:(lia)) as (D1 & D2). cbv zeta in *. split.
      * destruct D1 as (parts & P1 & P2 & P3). exists parts. split; [exact P1|]. split; [exact P2|]. intros r Hr. rewrite O2. exact (P3 r Hr).
      * intros HS. destruct (D2 HS) as (l0 & I1 & I2). exists l0. rewrite O1. split; assumption.
  - intros Hm. destruct (OT m ltac:(lia)) as (O1 & O2). destruct (proj2 (DI m) ltac:(lia)) as (D1 & D2). split; [congruence|]. intros r. rewrite O2. apply D2.
Qed.
(** the turns of the program *)
Inductive goes {S} (turn : S -> res (R * R * S)) (tfinal : R) : R -> S -> list (R * S) -> R -> S -> Prop :=
| go_done time s : (tfinal <= time)%R -> goes turn tfinal time s [] time s
| go_turn time s d dt s1 l t s' : (time < tfinal)%R -> turn s = Ok (d, dt, s1) -> goes turn tfinal (time + d)%R s1 l t s' -> goes turn tfinal time s ((d, s1) :: l) t s'.
Lemma saving_runs {S} (turn : S -> res (R * R * S)) (var : S -> list variable) tot final tfinal T : forall time s l t s', goes turn tfinal time s l t s' ->
  forall fuel dt k flds L F lf, (length l <= fuel)%nat -> (forall x, In x l -> tot (fst x) = T) -> 1 <= k -> (T <> 0 \/ l = [] \/ k = 1 /\ (length l <= 1)%nat) ->
  Forall2 (fun x fld => offers (var (snd x)) fld) l flds -> (final = true -> offers (var s') lf) -> directory L F ->
  exists F', saving_loop fuel turn var tot final at_node ord SIZE st tfinal time dt k (zlen L) s F = Ok (Some (t, s', F')) /\ directory (L ++ picked T k flds ++ if final : bool then [lf] else []) F'.
Proof.
  intros time s l t s' G. induction G as [time s HT | time s d dt' s1 l t s' HT ET G IH]; intros fuel dt k flds L F lf HF TT HK ZD FF FL DI.
  - inversion FF; subst. cbn [picked app].
    assert (EX : exists F', (do F <- (if final then save_variable at_node (ord (zlen L)) SIZE st dt time k (zlen L) (var s) F else ret F); ret (Some (time, s, F))) = Ok (Some (time, s, F')) /\ directory (L ++ (if final then [lf] else [])) F').
    { destruct final; [|exists F; rewrite app_nil_r; split; [reflexivity | exact DI]]. destruct (save_next L F (var s) lf dt time k DI (FL eq_refl)) as (F' & E' & D'). exists F'. rewrite E'. split; [reflexivity | exact D']. }
    destruct EX as (F' & E' & D'). exists F'. split; [|exact D']. destruct fuel; cbn [saving_loop]; (destruct (Rlt_dec time tfinal); [lra|]); exact E'.
  - destruct fuel as [|fuel]; [cbn in HF; lia|]. cbn [length] in HF. inversion FF as [|? fld ? flds' OF FF']; subst. cbn [saving_loop]. destruct (Rlt_dec time tfinal); [|lra]. rewrite ET. cbn [bind fst snd] in *.
    pose proof (TT (d, s1) (or_introl eq_refl)) as ED. cbn [fst] in ED. rewrite ED. cbn [picked].
    assert (DU : due T k = Ok ((k =? 1) || (k mod T =? 0))).
    { unfold due. destruct (Z.eqb_spec k 1) as [->|NK]; [reflexivity|]. destruct (Z.eqb_spec T 0) as [->|_]; [|reflexivity]. exfalso. destruct ZD as [ZD|[ZD|(ZD & _)]]; [lia | discriminate ZD | lia]. }
    rewrite DU. cbn [bind]. assert (ZD' : T <> 0 \/ l = [] \/ k + 1 = 1 /\ (length l <= 1)%nat).
    { destruct ZD as [ZD|[ZD|(_ & ZD)]]; [left; exact ZD | discriminate ZD | right; left]. cbn [length] in ZD. destruct l; [reflexivity | cbn in ZD; lia]. }
    destruct (_ || _).
    + destruct (save_next L F (var s1) fld dt' (time + d)%R k DI OF) as (F1 & E1 & D1). rewrite E1. cbn [bind].
      destruct (IH fuel dt' (k + 1) flds' (L ++ [fld]) F1 lf ltac:(lia) (fun x Hx => TT x (or_intror Hx)) ltac:(lia) ZD' FF' FL D1) as (F' & E' & D'). exists F'. rewrite zlen_app in E'. change (zlen [fld]) with 1 in E'. split; [exact E'|]. rewrite <- app_assoc in D'. exact D'.
    + cbn [bind]. destruct (IH fuel dt' (k + 1) flds' L F lf ltac:(lia) (fun x Hx => TT x (or_intror Hx)) ltac:(lia) ZD' FF' FL DI) as (F' & E' & D'). exists F'. split; [exact E' | exact D'].
Qed.
Lemma saving_fails {S} (turn : S -> res (R * R * S)) (var : S -> list variable) tot final tfinal time s d dt s1 d2 dt2 s2 fuel dt0 F fld :
  (time < tfinal)%R -> turn s = Ok (d, dt, s1) -> (time + d < tfinal)%R -> turn s1 = Ok (d2, dt2, s2) -> tot d2 = 0 -> offers (var s1) fld -> directory [] F -> (2 <= fuel)%nat ->
  saving_loop fuel turn var tot final at_node ord SIZE st tfinal time dt0 1 0 s F = Err ZeroDivision.
Proof.
  intros H1 E1 H2 E2 ET OF DI HF. destruct fuel as [|[|fuel]]; [lia | lia |]. cbn [saving_loop]. destruct (Rlt_dec time tfinal); [|lra]. rewrite E1. cbn [bind fst snd]. unfold due at 1. cbn [Z.eqb Pos.eqb bind].
  destruct (save_next [] F (var s1) fld dt (time + d)%R 1 DI OF) as (F1 & ES & _). change (zlen []) with 0 in ES. rewrite ES. cbn [bind]. destruct (Rlt_dec (time + d) tfinal); [|lra]. rewrite E2. cbn [bind fst snd]. unfold due. rewrite ET. reflexivity.
Qed.
Lemma empty_directory F : directory [] (emptied F).
Proof. intros m. change (zlen []) with 0. split; [lia|]. intros _. split; reflexivity. Qed.
Lemma offers_cells l X : at_node = false -> holding SIZE st X l -> offers l (OnCells X).
Proof.
  intros AN (ws & EW & HV). unfold offers, value_of. rewrite AN. exists (map Some ws). split; [|split; [exists ws; split; [reflexivity | exact HV] | reflexivity]]. revert ws EW HV. intros ws EW _. revert ws EW. induction l as [|v l IH]; intros ws EW; cbn [mapM] in *; [injection EW as <-; reflexivity|].
  apply bind_ok in EW as (w & E1 & EW). apply bind_ok in EW as (ws' & E2 & EW). injection EW as <-. rewrite E1. cbn [bind]. rewrite (IH ws' E2). reflexivity.
Qed.
Lemma offers_nodes l N : at_node = true -> zlen l = SIZE -> node_field SIZE st N l -> offers l (OnNodes N).
Proof.
  intros AN LL NF. unfold offers, value_of. rewrite AN. set (ws := map (fun v => nthZ [] (va_heap v) r_node) l). exists (map Some ws).
  assert (AT : forall v, In v l -> exists r, 0 <= r < SIZE /\ get l r = Ok v). { intros v Hv. apply In_nthZ with (d := v) in Hv as (r & Hr & Er). exists r. split; [lia|]. rewrite (get_nthZ v) by exact Hr. congruence. }
  split; [|split; [|reflexivity]].
  - unfold ws. rewrite map_map. apply mapM_ok. intros v Hv. destruct (AT v Hv) as (r & Hr & Ev). destruct (NF r Hr) as (v' & n & E1 & E2 & _). rewrite Ev in E1. injection E1 as <-. rewrite E2. cbn [bind]. rewrite (got [] _ _ _ E2) by (unfold r_node; lia). reflexivity.
  - exists ws. split; [reflexivity|]. split; [unfold ws; rewrite zlen_map; exact LL|]. intros r Hr D. destruct (NF r Hr) as (v & n & E1 & E2 & E3 & E4). fold D in E3, E4.
    assert (EN : nthZ [] ws r = n). { unfold ws. rewrite (nthZ_map _ v) by lia. rewrite <- (got v _ _ _ E1) by lia. symmetry. apply (got [] _ _ _ E2). unfold r_node. lia. }
    rewrite EN. split; [exact E3 | exact E4].
Qed.
End Saving.
