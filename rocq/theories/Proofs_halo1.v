(** * Proofs_halo1: marking of partition-boundary faces *)
From Verif Require Import Py PyLemmas Scatter Model_part Model_label Model_conn Spec_conn Proofs_conn1 Proofs_conn2 Proofs_conn3 Model_geom Spec_geom Model_halo Spec_halo.
From Coq Require Import Permutation Sorting.Sorted ZifyBool.
Open Scope Z_scope.

Lemma list_eqb_spec a b : reflect (a = b) (list_eqb a b).
Proof. unfold list_eqb. destruct (list_eq_dec Z.eq_dec a b); constructor; assumption. Qed.
Lemma lget_lset d k v k' : lget (lset d k v) k' = if list_eqb k k' then Some v else lget d k'.
Proof. unfold lget, lset. cbn [find fst snd]. destruct (list_eqb k k'); reflexivity. Qed.

Definition keys_of (dim : Z) (r : list Z) : list (list Z) :=
  let n k := nthZ 0 r k in
  if dim =? 2 then [[n 1; n 2]; [n 2; n 3]; [n 1; n 3]] else [[n 1; n 2; n 3]; [n 3; n 4; n 1]; [n 1; n 2; n 4]; [n 4; n 2; n 3]].
Definition add_keys (ks : list (list Z)) (d : dictL) (k : Z) : dictL := fst (fold_left (fun '(d, k) key => (lset d key k, k + 1)) ks (d, k)).

Lemma lget_add_keys ks d k key :
  match lget (add_keys ks d k) key with
  | Some v => (exists j, 0 <= j < zlen ks /\ v = k + j /\ nthZ [] ks j = key) \/ (~ In key ks /\ lget d key = Some v)
  | None => ~ In key ks /\ lget d key = None
  end.
Proof.
  unfold add_keys. revert d k; induction ks as [|k0 ks IH]; intros d k; cbn [fold_left fst].
  - destruct (lget d key); auto.
  - specialize (IH (lset d k0 k) (k + 1)). destruct (lget _ key) as [v|].
    + destruct IH as [(j & Hj & -> & Hn)|(Hni & E)].
      * left. exists (j + 1). rewrite zlen_cons. split; [lia|]. split; [lia|]. rewrite nthZ_cons by lia. replace (j + 1 - 1) with j by lia. exact Hn.
      * rewrite lget_lset in E. destruct (list_eqb_spec k0 key) as [->|Hne].
        -- left. exists 0. rewrite zlen_cons. pose proof (zlen_nonneg ks). split; [lia|]. split; [injection E as <-; lia | reflexivity].
        -- right. split; [intros [->|H]; congruence | exact E].
    + destruct IH as (Hni & E). rewrite lget_lset in E. destruct (list_eqb_spec k0 key) as [->|Hne]; [discriminate|]. split; [intros [->|H]; congruence | exact E].
Qed.

Section Mark.
Context (dim : Z) (halosext : list (list Z)).
Hypothesis Hdim : dim = 2 \/ dim = 3.
Hypothesis WH : wf_halos dim halosext.

Lemma zlen_keys r : zlen (keys_of dim r) = dim + 1.
Proof. unfold keys_of. destruct Hdim as [-> | ->]; reflexivity. Qed.
Lemma halo_keys_ok r : zlen r = dim + 2 -> halo_keys dim r = Ok (keys_of dim r).
Proof.
  intros HL. unfold halo_keys, keys_of. assert (Hd : dim = 2 \/ dim = 3) by exact Hdim. destruct Hd as [Ed|Ed]; rewrite Ed in *; rewrite !(get_nthZ 0) by lia; reflexivity.
Qed.

Definition dict_ok (n : Z) (D : dictL) : Prop :=
  (forall key v, lget D key = Some v -> exists h, 0 <= h < n /\ In key (keys_of dim (nthZ [] halosext h)) /\ 1 <= v /\ Z.quot (-1 + v) (dim + 1) = h) /\
  (forall h key, 0 <= h < n -> In key (keys_of dim (nthZ [] halosext h)) -> exists v, lget D key = Some v).

Lemma halo_dict_ok : exists D, halo_dict dim halosext = Ok D /\ dict_ok (zlen halosext) D.
Proof.
  unfold halo_dict.
  destruct (foldM_inv (fun done s => incl done halosext /\ snd s = 1 + (dim + 1) * zlen done /\
      (exists rest, halosext = done ++ rest) /\ dict_ok (zlen done) (fst s))
    (fun s r => let '(d, k) := s in do ks <- halo_keys dim r; ret (fst (fold_left (fun '(d, k) key => (lset d key k, k + 1)) ks (d, k)), k + (dim + 1)))
    halosext ([], 1)) as (s & E & _ & _ & _ & H).
  - split; [intros x []|]. split; [cbn [snd]; rewrite zlen_nil; lia|]. split; [exists halosext; reflexivity|]. split; [intros key v; discriminate | intros h key H; change (zlen []) with 0 in H; lia].
  - intros done x rest [d k] Eh (_ & Hk & _ & D1 & D2). cbn [fst snd] in *.
    assert (Hx : nthZ [] halosext (zlen done) = x) by (rewrite Eh, nthZ_app_r by lia; rewrite Z.sub_diag; reflexivity).
    assert (Hh : ishalo halosext (zlen done)) by (unfold ishalo; rewrite Eh, zlen_app, zlen_cons; pose proof (zlen_nonneg done); pose proof (zlen_nonneg rest); lia).
    destruct (WH _ Hh) as (HL & _). rewrite Hx in HL. rewrite (halo_keys_ok x HL). cbn [bind]. eexists; split; [reflexivity|]. cbn [fst snd].
    fold (add_keys (keys_of dim x) d k). rewrite zlen_app. change (zlen [x]) with 1.
    split; [intros y Hy; rewrite Eh; apply in_app_iff; apply in_app_iff in Hy as [Hy|[<-|[]]]; [left; exact Hy | right; left; reflexivity]|].
    split; [lia|]. split; [exists rest; rewrite <- app_assoc; exact Eh|]. split.
    + intros key v Hv. pose proof (lget_add_keys (keys_of dim x) d k key) as L. rewrite Hv in L. destruct L as [(j & Hj & Ev & Ej)|(_ & Hd)].
      * exists (zlen done). pose proof (zlen_nonneg done). split; [lia|]. rewrite Hx. rewrite zlen_keys in Hj. split; [rewrite <- Ej; apply nthZ_In; rewrite zlen_keys; exact Hj|].
        split; [destruct Hdim; lia|]. rewrite Ev, Hk. replace (-1 + (1 + (dim + 1) * zlen done + j)) with (zlen done * (dim + 1) + j) by lia.
        rewrite Z.quot_div_nonneg by (destruct Hdim; lia). rewrite Z.div_add_l by (destruct Hdim; lia). rewrite Z.div_small by exact Hj. lia.
      * destruct (D1 key v Hd) as (h & Hh' & A & B). exists h. split; [lia|]. auto.
    + intros h key Hh' Hin. pose proof (lget_add_keys (keys_of dim x) d k key) as L. destruct (lget (add_keys (keys_of dim x) d k) key) as [v|]; [exists v; reflexivity|].
      exfalso. destruct L as (Hni & Hd). destruct (Z.eq_dec h (zlen done)) as [->|Hne]; [rewrite Hx in Hin; contradiction|].
      destruct (D2 h key ltac:(lia) Hin) as (v & Ev). congruence.
  - rewrite E. cbn [bind]. exists (fst s). auto.
Qed.

(** ** a permutation of the face is a key of a halo cell iff the halo cell contains the face *)
Definition orders (gs : list Z) : list (list Z) :=
  let n k := nthZ 0 gs k in
  if dim =? 2 then [[n 0; n 1]; [n 1; n 0]] else
  [[n 0; n 1; n 2]; [n 0; n 2; n 1]; [n 1; n 0; n 2]; [n 1; n 2; n 0]; [n 2; n 0; n 1]; [n 2; n 1; n 0]].
Lemma lookups_ok gs : zlen gs = dim -> lookups dim gs = Ok (orders gs).
Proof.
  intros HL. unfold lookups, orders. assert (Hd : dim = 2 \/ dim = 3) by exact Hdim. destruct Hd as [Ed|Ed]; rewrite Ed in *; rewrite !(get_nthZ 0) by lia; reflexivity.
Qed.
Lemma orders_perm gs key : zlen gs = dim -> In key (orders gs) -> forall x, In x key <-> In x gs.
Proof.
  intros HL. unfold orders. assert (Hd : dim = 2 \/ dim = 3) by exact Hdim. destruct Hd as [Ed|Ed]; rewrite Ed in *; cbn [Z.eqb Pos.eqb].
  - destruct (list2 gs HL) as (a & b & ->). change (nthZ 0 [a; b] 0) with a. change (nthZ 0 [a; b] 1) with b. cbn [In]. intros [<-|[<-|[]]] x; cbn; tauto.
  - destruct (list3 gs HL) as (a & b & c & ->). change (nthZ 0 [a; b; c] 0) with a. change (nthZ 0 [a; b; c] 1) with b. change (nthZ 0 [a; b; c] 2) with c. cbn [In].
    intros [<-|[<-|[<-|[<-|[<-|[<-|[]]]]]]] x; cbn; tauto.
Qed.
Lemma keys_incl h key : ishalo halosext h -> In key (keys_of dim (nthZ [] halosext h)) -> incl key (halo_nodes halosext h).
Proof.
  intros Hh. destruct (WH h Hh) as (HL & _). unfold halo_nodes, keys_of. destruct (nthZ [] halosext h) as [|c0 r] eqn:E; [unfold zlen in HL; cbn in HL; destruct Hdim; lia|]. cbn [tl].
  rewrite zlen_cons in HL. assert (Hd : dim = 2 \/ dim = 3) by exact Hdim. destruct Hd as [Ed|Ed]; rewrite Ed in *; cbn [Z.eqb Pos.eqb].
  - destruct (list3 r ltac:(lia)) as (a & b & c & ->). change (nthZ 0 [c0; a; b; c] 1) with a. change (nthZ 0 [c0; a; b; c] 2) with b. change (nthZ 0 [c0; a; b; c] 3) with c.
    cbn [In]. intros [<-|[<-|[<-|[]]]] x; cbn; tauto.
  - destruct (list4 r ltac:(lia)) as (a & b & c & d & ->). change (nthZ 0 [c0; a; b; c; d] 1) with a. change (nthZ 0 [c0; a; b; c; d] 2) with b. change (nthZ 0 [c0; a; b; c; d] 3) with c. change (nthZ 0 [c0; a; b; c; d] 4) with d.
    cbn [In]. intros [<-|[<-|[<-|[<-|[]]]]] x; cbn; tauto.
Qed.
Lemma keys_complete h gs : ishalo halosext h -> zlen gs = dim -> NoDup gs -> incl gs (halo_nodes halosext h) ->
  exists key, In key (keys_of dim (nthZ [] halosext h)) /\ In key (orders gs).
Proof.
  intros Hh HLg HND. destruct (WH h Hh) as (HL & HNDh). unfold halo_nodes in *. destruct (nthZ [] halosext h) as [|c0 r] eqn:E; [unfold zlen in HL; cbn in HL; destruct Hdim; lia|]. cbn [tl] in *.
  rewrite zlen_cons in HL. unfold orders, keys_of. assert (Hd : dim = 2 \/ dim = 3) by exact Hdim. clear Hdim WH E Hh. destruct Hd as [Ed|Ed]; rewrite Ed in *; cbn [Z.eqb Pos.eqb].
  - destruct (list3 r ltac:(lia)) as (a & b & c & ->). destruct (list2 gs HLg) as (x & y & ->).
    change (nthZ 0 [c0; a; b; c] 1) with a. change (nthZ 0 [c0; a; b; c] 2) with b. change (nthZ 0 [c0; a; b; c] 3) with c. change (nthZ 0 [x; y] 0) with x. change (nthZ 0 [x; y] 1) with y.
    intros HI. pose proof (HI x ltac:(cbn; auto)) as Hx. pose proof (HI y ltac:(cbn; auto)) as Hy. clear HI HL HLg.
    assert (Hxy : x <> y) by (intros ->; apply NoDup_cons_iff in HND as (HN1 & _); apply HN1; left; reflexivity). clear HND HNDh. cbn [In] in Hx, Hy.
    destruct Hx as [<-|[<-|[<-|[]]]], Hy as [<-|[<-|[<-|[]]]]; try congruence;
      [exists [a; b] | exists [a; c] | exists [a; b] | exists [b; c] | exists [a; c] | exists [b; c]]; cbn; auto 8.
  - destruct (list4 r ltac:(lia)) as (a & b & c & d & ->). destruct (list3 gs HLg) as (x & y & z & ->).
    change (nthZ 0 [c0; a; b; c; d] 1) with a. change (nthZ 0 [c0; a; b; c; d] 2) with b. change (nthZ 0 [c0; a; b; c; d] 3) with c. change (nthZ 0 [c0; a; b; c; d] 4) with d.
    change (nthZ 0 [x; y; z] 0) with x. change (nthZ 0 [x; y; z] 1) with y. change (nthZ 0 [x; y; z] 2) with z.
    intros HI. pose proof (HI x ltac:(cbn; auto)) as Hx. pose proof (HI y ltac:(cbn; auto)) as Hy. pose proof (HI z ltac:(cbn; auto)) as Hz. clear HI HL HLg.
    destruct (nodup3 _ _ _ HND) as (D1 & D2 & D3). clear HND HNDh. cbn [In] in Hx, Hy, Hz.
    destruct Hx as [<-|[<-|[<-|[<-|[]]]]], Hy as [<-|[<-|[<-|[<-|[]]]]]; try congruence;
    destruct Hz as [<-|[<-|[<-|[<-|[]]]]]; try congruence;
    first [exists [a; b; c]; cbn [In]; split; [auto 8 | auto 12; fail]
         | exists [c; d; a]; cbn [In]; split; [auto 8 | auto 12; fail]
         | exists [a; b; d]; cbn [In]; split; [auto 8 | auto 12; fail]
         | exists [d; b; c]; cbn [In]; split; [auto 8 | auto 12; fail]].
Qed.

(** ** the marking loop *)
Definition last_found (D : dictL) (ks : list (list Z)) : option Z :=
  fold_left (fun acc key => match lget D key with Some v => Some v | None => acc end) ks None.

Definition apply_mark (F : list Z) (i : Z) (s : hstate) (v : Z) : hstate :=
  {| hs_cellid := upd (hs_cellid s) i [nthZ 0 (nthZ [] (hs_cellid s) i) 0; -10]; hs_name := upd (hs_name s) i 10;
     hs_nodename := fold_left (fun nn k => upd nn k 10) F (hs_nodename s); hs_halofid := upd (hs_halofid s) i (Z.quot (-1 + v) (dim + 1)) |}.

Lemma upd_upd {A} (l : list A) i v w : upd (upd l i v) i w = upd l i w.
Proof. unfold upd. generalize (Z.to_nat i). induction l as [|x l IH]; intros [|n]; cbn; try reflexivity. rewrite IH; reflexivity. Qed.
Lemma zlen_fold_upd {A} (v : A) F l : zlen (fold_left (fun nn k => upd nn k v) F l) = zlen l.
Proof. revert l; induction F as [|k F IH]; intros l; cbn; [reflexivity|]. rewrite IH, zlen_upd; reflexivity. Qed.
Lemma nthZ_fold_upd {A} (d v : A) F l k : (forall k, In k F -> 0 <= k < zlen l) -> 0 <= k ->
  nthZ d (fold_left (fun nn k => upd nn k v) F l) k = if mem k F then v else nthZ d l k.
Proof.
  revert l; induction F as [|a F IH]; intros l HF Hk; cbn [fold_left mem existsb]; [reflexivity|].
  rewrite IH; [|intros; rewrite zlen_upd; apply HF; right; assumption | exact Hk]. fold (mem k F).
  destruct (mem k F); [rewrite orb_true_r; reflexivity|]. rewrite orb_false_r. apply nthZ_upd; [apply HF; left; reflexivity | exact Hk].
Qed.

Section OneFace.
Context (D : dictL) (F : list Z) (i : Z).
Hypothesis HD : forall key v, lget D key = Some v -> 1 <= v.

Definition st_ok (n nbn : Z) (s : hstate) : Prop :=
  zlen (hs_cellid s) = n /\ zlen (hs_name s) = n /\ zlen (hs_halofid s) = n /\ zlen (hs_nodename s) = nbn /\
  forall f, 0 <= f < n -> zlen (nthZ [] (hs_cellid s) f) = 2.

Lemma apply_mark_ok n nbn s v : 0 <= i < n -> st_ok n nbn s -> st_ok n nbn (apply_mark F i s v).
Proof.
  intros Hi (A & B & C & E & G). unfold st_ok, apply_mark; cbn [hs_cellid hs_name hs_halofid hs_nodename]. rewrite !zlen_upd, zlen_fold_upd. repeat split; try assumption.
  intros f Hf. rewrite nthZ_upd by lia. destruct (f =? i); [reflexivity | apply G; exact Hf].
Qed.
Lemma apply_apply n nbn s v w : 0 <= i < n -> st_ok n nbn s -> (forall k, In k F -> 0 <= k < nbn) -> apply_mark F i (apply_mark F i s v) w = apply_mark F i s w.
Proof.
  intros Hi (A & B & C & E & G) HF. unfold apply_mark; cbn [hs_cellid hs_name hs_nodename hs_halofid]. rewrite !upd_upd. f_equal.
  - f_equal. rewrite nthZ_upd_eq by lia. reflexivity.
  - apply (nthZ_ext 0); [rewrite !zlen_fold_upd; reflexivity|]. intros k Hk. rewrite !zlen_fold_upd in Hk.
    rewrite !nthZ_fold_upd by (try lia; intros x Hx; rewrite ?zlen_fold_upd; specialize (HF x Hx); lia). destruct (mem k F); reflexivity.
Qed.
Lemma mark_one_ok n nbn s key : 0 <= i < n -> st_ok n nbn s -> (forall k, In k F -> 0 <= k < nbn) ->
  mark_one dim D F i s key = Ok (match lget D key with Some v => apply_mark F i s v | None => s end).
Proof.
  intros Hi (A & B & C & E & G) HF. unfold mark_one. destruct (lget D key) as [v|] eqn:Ev; [|reflexivity]. specialize (HD _ _ Ev).
  destruct (Z.eqb_spec v 0); [lia|]. rewrite (get2_nthZ 0) by (rewrite ?G; lia). cbn [bind]. rewrite !set_upd by lia. cbn [bind].
  assert (EN : forall l nn, (forall k, In k l -> 0 <= k < zlen nn) -> foldM (fun nn k => set nn k 10) l nn = Ok (fold_left (fun nn k => upd nn k 10) l nn)).
  { induction l as [|k l IH]; intros nn Hl; cbn; [reflexivity|]. rewrite set_upd by (apply Hl; left; reflexivity). cbn. apply IH. intros x Hx. rewrite zlen_upd. apply Hl; right; exact Hx. }
  rewrite EN by (intros k Hk; rewrite E; apply HF; exact Hk). reflexivity.
Qed.
Lemma mark_all_ok n nbn ks : 0 <= i < n -> (forall k, In k F -> 0 <= k < nbn) -> forall s, st_ok n nbn s ->
  foldM (mark_one dim D F i) ks s = Ok (match last_found D ks with Some v => apply_mark F i s v | None => s end).
Proof.
  intros Hi HF. unfold last_found.
  assert (G : forall ks s acc, st_ok n nbn s ->
     foldM (mark_one dim D F i) ks (match acc with Some v => apply_mark F i s v | None => s end)
     = Ok (match fold_left (fun acc key => match lget D key with Some v => Some v | None => acc end) ks acc with Some v => apply_mark F i s v | None => s end)).
  { clear ks; induction ks as [|key ks IH]; intros s acc Hs; cbn [foldM fold_left]; [reflexivity|].
    rewrite (mark_one_ok n nbn) by (first [assumption | destruct acc; first [apply apply_mark_ok; assumption | assumption]]). cbn [bind].
    rewrite <- (IH s _ Hs). f_equal. destruct (lget D key) as [v|], acc as [w|]; try reflexivity. apply (apply_apply n nbn); assumption. }
  intros s Hs. exact (G ks s None Hs).
Qed.
End OneFace.

Lemma last_found_Some D ks v : last_found D ks = Some v -> exists key, In key ks /\ lget D key = Some v.
Proof.
  unfold last_found. assert (G : forall ks acc, fold_left (fun acc key => match lget D key with Some v => Some v | None => acc end) ks acc = Some v -> acc = Some v \/ exists key, In key ks /\ lget D key = Some v).
  { clear ks; induction ks as [|k ks IH]; intros acc H; cbn in H; [auto|]. apply IH in H as [H|(key & Hk & E)]; [|right; exists key; split; [right; exact Hk | exact E]].
    destruct (lget D k) eqn:Ek; [right; exists k; split; [left; reflexivity | congruence] | auto]. }
  intros H. destruct (G _ _ H) as [A|A]; [discriminate | exact A].
Qed.
Lemma last_found_None D ks : last_found D ks = None -> forall key, In key ks -> lget D key = None.
Proof.
  unfold last_found. assert (G : forall ks acc, fold_left (fun acc key => match lget D key with Some v => Some v | None => acc end) ks acc = None -> acc = None /\ forall key, In key ks -> lget D key = None).
  { clear ks; induction ks as [|k ks IH]; intros acc H; cbn in H; [split; [exact H | intros key []]|]. apply IH in H as (A & B). destruct (lget D k) eqn:Ek; [discriminate|]. split; [exact A|]. intros key [<-|Hk]; auto. }
  intros H. apply (proj2 (G _ _ H)).
Qed.

(** ** result of the marking *)
Context (loctoglob : list Z) (facenodes : list (list Z)) (s0 : hstate).
Let n := zlen facenodes.
Let nbn := zlen loctoglob.
Hypothesis HF : forall f, 0 <= f < n -> zlen (nthZ [] facenodes f) = dim /\ NoDup (globals loctoglob (nthZ [] facenodes f)) /\ forall k, In k (nthZ [] facenodes f) -> 0 <= k < nbn.
Hypothesis Hs0 : st_ok n nbn s0.
Notation Fn f := (nthZ [] facenodes f).

Lemma mark_spec : exists s, mark_halo_faces dim halosext loctoglob facenodes s0 = Ok s /\ st_ok n nbn s /\
  (forall f, 0 <= f < n ->
     ((exists h, halo_has loctoglob halosext (Fn f) h) ->
        nthZ [] (hs_cellid s) f = [nthZ 0 (nthZ [] (hs_cellid s0) f) 0; -10] /\ nthZ 0 (hs_name s) f = 10 /\
        halo_has loctoglob halosext (Fn f) (nthZ 0 (hs_halofid s) f)) /\
     ((forall h, ~ halo_has loctoglob halosext (Fn f) h) ->
        nthZ [] (hs_cellid s) f = nthZ [] (hs_cellid s0) f /\ nthZ 0 (hs_name s) f = nthZ 0 (hs_name s0) f /\ nthZ 0 (hs_halofid s) f = nthZ 0 (hs_halofid s0) f)) /\
  (forall k, 0 <= k < nbn ->
     ((exists f h, 0 <= f < n /\ In k (Fn f) /\ halo_has loctoglob halosext (Fn f) h) -> nthZ 0 (hs_nodename s) k = 10) /\
     ((forall f h, 0 <= f < n -> In k (Fn f) -> ~ halo_has loctoglob halosext (Fn f) h) -> nthZ 0 (hs_nodename s) k = nthZ 0 (hs_nodename s0) k)).
Proof.
  unfold mark_halo_faces. destruct halo_dict_ok as (D & ED & D1 & D2). rewrite ED. cbn [bind].
  assert (HD : forall key v, lget D key = Some v -> 1 <= v) by (intros key v E; destruct (D1 _ _ E) as (_ & _ & _ & A & _); exact A).
  pose (found f := last_found D (orders (globals loctoglob (Fn f)))).
  assert (Hlen : forall f, 0 <= f < n -> zlen (globals loctoglob (Fn f)) = dim) by (intros f Hf; unfold globals; rewrite zlen_map; apply HF; exact Hf).
  assert (F1 : forall f v, 0 <= f < n -> found f = Some v -> halo_has loctoglob halosext (Fn f) (Z.quot (-1 + v) (dim + 1))).
  { intros f v Hf E. destruct (last_found_Some _ _ _ E) as (key & Hk & Ek). destruct (D1 _ _ Ek) as (h & Hh & Hin & _ & ->). split; [exact Hh|].
    intros x Hx. apply (keys_incl h key Hh Hin). apply (orders_perm _ _ (Hlen f Hf) Hk). exact Hx. }
  assert (F2 : forall f h, 0 <= f < n -> halo_has loctoglob halosext (Fn f) h -> exists v, found f = Some v).
  { intros f h Hf (Hh & HI). destruct (keys_complete h _ Hh (Hlen f Hf) (proj1 (proj2 (HF f Hf))) HI) as (key & Hk & Ho). destruct (D2 h key Hh Hk) as (v & Ev).
    destruct (found f) as [w|] eqn:E; [exists w; reflexivity|]. rewrite (last_found_None _ _ E key Ho) in Ev. discriminate. }
  assert (STEP : forall s f, 0 <= f < n -> st_ok n nbn s -> mark_face dim D loctoglob facenodes s f = Ok (match found f with Some v => apply_mark (Fn f) f s v | None => s end)).
  { intros s f Hf Hs. unfold mark_face. rewrite (get_nthZ []) by exact Hf. cbn [bind]. destruct (HF f Hf) as (_ & _ & Hrng).
    rewrite (mapM_ok _ (nthZ 0 loctoglob)) by (intros k Hk; apply get_nthZ; apply Hrng; exact Hk). cbn [bind].
    change (map (nthZ 0 loctoglob) (Fn f)) with (globals loctoglob (Fn f)). rewrite (lookups_ok _ (Hlen f Hf)). cbn [bind]. apply (mark_all_ok D (Fn f) f HD n nbn); assumption. }
  pose (hit f := match found f with Some _ => true | None => false end).
  destruct (foldM_range_inv (fun m s => st_ok n nbn s /\
      (forall f, 0 <= f < n -> nthZ [] (hs_cellid s) f = (if (f <? m) && hit f then [nthZ 0 (nthZ [] (hs_cellid s0) f) 0; -10] else nthZ [] (hs_cellid s0) f) /\
         nthZ 0 (hs_name s) f = (if (f <? m) && hit f then 10 else nthZ 0 (hs_name s0) f) /\
         nthZ 0 (hs_halofid s) f = (if f <? m then match found f with Some v => Z.quot (-1 + v) (dim + 1) | None => nthZ 0 (hs_halofid s0) f end else nthZ 0 (hs_halofid s0) f)) /\
      (forall k, 0 <= k < nbn -> nthZ 0 (hs_nodename s) k = if existsb (fun f => hit f && mem k (Fn f)) (range m) then 10 else nthZ 0 (hs_nodename s0) k))
    (mark_face dim D loctoglob facenodes) n s0) as (s & E & HI).
  - apply zlen_nonneg.
  - split; [exact Hs0|]. split; [|intros k Hk; reflexivity]. intros f Hf. replace (f <? 0) with false by lia. auto.
  - intros f s Hf (Hs & Hfa & Hno). rewrite (STEP s f Hf Hs). eexists; split; [reflexivity|].
    assert (HitE : hit f = match found f with Some _ => true | None => false end) by reflexivity.
    destruct (found f) as [v|] eqn:Ef.
    + split; [apply apply_mark_ok; assumption|]. destruct Hs as (L1 & L2 & L3 & L4 & L5). split.
      * intros f' Hf'. destruct (Hfa f' Hf') as (A & B & C). cbn [hs_cellid hs_name hs_halofid apply_mark]. rewrite !nthZ_upd by lia.
        destruct (Z.eqb_spec f' f) as [->|Hne].
        -- replace (f <? f + 1) with true by lia. rewrite HitE, Ef. cbn [andb]. destruct (Hfa f Hf) as (A' & _). rewrite A'. replace (f <? f) with false by lia. cbn [andb]. auto.
        -- replace (f' <? f + 1) with (f' <? f) by lia. auto.
      * intros k Hk. cbn [hs_nodename apply_mark]. rewrite nthZ_fold_upd by (try lia; intros x Hx; rewrite L4; apply (proj2 (proj2 (HF f Hf))); assumption).
        rewrite range_succ by lia. rewrite existsb_app. cbn [existsb]. rewrite HitE. cbn [andb orb]. rewrite orb_false_r, (Hno k Hk).
        destruct (mem k (Fn f)); [rewrite orb_true_r; reflexivity | rewrite orb_false_r; reflexivity].
    + split; [exact Hs|]. split.
      * intros f' Hf'. destruct (Hfa f' Hf') as (A & B & C). destruct (Z.eqb_spec f' f) as [->|Hne].
        -- replace (f <? f + 1) with true by lia. replace (f <? f) with false in * by lia. rewrite HitE, Ef. cbn [andb] in *. auto.
        -- replace (f' <? f + 1) with (f' <? f) by lia. auto.
      * intros k Hk. rewrite range_succ by lia. rewrite existsb_app. cbn [existsb]. rewrite HitE. cbn [andb orb]. rewrite orb_false_r. apply Hno; exact Hk.
  - destruct HI as (Hs & Hfa & Hno). exists s. split; [exact E|]. split; [exact Hs|]. split.
    + intros f Hf. destruct (Hfa f Hf) as (A & B & C). replace (f <? n) with true in * by lia. cbn [andb] in *. unfold hit in A, B. split.
      * intros (h & Hh). destruct (F2 f h Hf Hh) as (v & Ev). rewrite Ev in *. split; [exact A|]. split; [exact B|]. rewrite C. apply F1; assumption.
      * intros Hno'. destruct (found f) as [v|] eqn:Ev; [exfalso; eapply Hno'; apply F1; eassumption|]. auto.
    + intros k Hk. rewrite (Hno k Hk). split.
      * intros (f & h & Hf & Hin & Hh). destruct (F2 f h Hf Hh) as (v & Ev).
        replace (existsb (fun f0 => hit f0 && mem k (Fn f0)) (range n)) with true; [reflexivity|]. symmetry. apply existsb_exists. exists f. split; [apply in_range; exact Hf|].
        unfold hit. rewrite Ev. cbn. apply mem_In; exact Hin.
      * intros H. destruct (existsb _ (range n)) eqn:Ex; [|reflexivity]. exfalso. apply existsb_exists in Ex as (f & Hf & Hm). apply in_range in Hf. apply andb_true_iff in Hm as (Hh & Hm).
        unfold hit in Hh. destruct (found f) as [v|] eqn:Ev; [|discriminate]. apply (H f _ Hf (proj1 (mem_In _ _) Hm) (F1 f v Hf Ev)).
Qed.
End Mark.
