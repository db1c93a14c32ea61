(** * Proofs_poisson5: sums over the ranks, vectors. *)
From Coq Require Import Reals Lra Permutation Sorted.
From Verif Require Import Py PyLemmas Model_part Spec_part Model_label Model_conn Spec_conn Proofs_conn1 Proofs_conn2 Model_geom Spec_geom Proofs_geom1 Proofs_geom2 Proofs_geom3
  Model_halo Spec_halo Model_interp Spec_interp Proofs_interp4 Proofs_interp5 Proofs_interp6 Spec_lsq Proofs_lsq Properties_lsq Model_fvm Spec_fvm Proofs_fvm1 Proofs_fvm2 Properties_fvm Model_bc Spec_bc Spec_bc3 Proofs_label Proofs_bc Proofs_bc2 Proofs_bc3 Properties_bc3 Model_domain Spec_domain Proofs_domain1 Proofs_domain4
  Model_comm Model_parallel Spec_parallel Proofs_parallel1 Proofs_parallel6 Properties_parallel Model_run Spec_run Proofs_run1 Proofs_run2 Proofs_run3 Proofs_run4 Proofs_run5 Proofs_run6 Spec_run2 Model_run2 Proofs_run7 Proofs_run8 Proofs_run9 Proofs_run10 Proofs_run11 Proofs_run12 Proofs_run13 Proofs_run14 Proofs_run15 Spec_run3 Proofs_run16 Model_poisson Spec_poisson Proofs_poisson1 Proofs_poisson2 Proofs_poisson3 Spec_poisson2 Proofs_poisson4.
From Verif Require Model_linsys Spec_linsys Properties_linsys Proofs_periodic Proofs_linsys1 Proofs_linsys5 Proofs_part2 Proofs_comm.
Open Scope Z_scope.

Lemma length_concat_sum {A B} (f : A -> list B) l : zlen (concat (map f l)) = fold_right Z.add 0 (map (fun x => zlen (f x)) l).
Proof. induction l as [|x l IH]; [reflexivity|]. cbn [map concat fold_right]. rewrite zlen_app, IH. reflexivity. Qed.
(** sums in which one rank counts *)
Lemma row_sum_one (P : Z -> list Model_linsys.entry) (n o c : Z) x : 0 <= o < n -> (forall r, 0 <= r < n -> r <> o -> Spec_linsys.row_sum (P r) c x = Some 0%R) ->
  Spec_linsys.row_sum (concat (map P (range n))) c x = Spec_linsys.row_sum (P o) c x.
Proof.
  intros Ho H. assert (G : forall l, NoDup l -> (forall r, In r l -> 0 <= r < n) -> Spec_linsys.row_sum (concat (map P l)) c x = if mem o l then Spec_linsys.row_sum (P o) c x else Some 0%R).
  { induction l as [|r l IH]; intros ND R0; [reflexivity|]. cbn [map concat]. rewrite Proofs_linsys5.row_sum_app. inversion ND as [|? ? N1 N2]; subst. rewrite (IH N2) by (intros; apply R0; right; assumption). cbn [mem existsb].
    destruct (Z.eqb_spec o r) as [->|Ne].
    - replace (mem r l) with false by (symmetry; apply mem_not_In; exact N1). destruct (Spec_linsys.row_sum (P r) c x); cbn; [f_equal; ring | reflexivity].
    - rewrite (H r) by (auto; apply R0; left; reflexivity). cbn [orb]. change (existsb (Z.eqb o) l) with (mem o l). destruct (if mem o l then _ else _); cbn; [f_equal; ring | reflexivity]. }
  rewrite G by (try apply NoDup_range; intros r Hr; apply in_range; exact Hr). replace (mem o (range n)) with true by (symmetry; apply mem_In, in_range; exact Ho). reflexivity.
Qed.
Lemma add_arrays_ok a b n : zlen a = n -> zlen b = n -> zlen (add_arrays a b) = n /\ forall i, 0 <= i < n -> nthZ None (add_arrays a b) i = oadd (nthZ None a i) (nthZ None b i).
Proof.
  intros La Lb. unfold add_arrays. assert (LC : zlen (combine a b) = n) by (unfold zlen in *; rewrite combine_length; lia). split; [rewrite zlen_map; exact LC|]. intros i Hi. rewrite (nthZ_map _ (None, None)) by lia.
  replace (nthZ (None, None) (combine a b) i) with (nthZ None a i, nthZ None b i); [reflexivity|]. unfold nthZ. symmetry. apply combine_nth. unfold zlen in *. lia.
Qed.
Lemma reduce_one (P : Z -> list (option R)) (SIZE n o i : Z) y : 0 <= o < SIZE -> 0 <= i < n -> (forall r, 0 <= r < SIZE -> zlen (P r) = n) -> nthZ None (P o) i = Some y ->
  (forall r, 0 <= r < SIZE -> r <> o -> nthZ None (P r) i = Some 0%R) -> nthZ None (reduce_sum (map P (range SIZE))) i = Some y.
Proof.
  intros Ho Hi L Ey Ez.
  assert (G : forall l a s, NoDup l -> (forall r, In r l -> 0 <= r < SIZE) -> zlen a = n -> nthZ None a i = Some s -> nthZ None (fold_left add_arrays (map P l) a) i = Some (s + (if mem o l then y else 0))%R).
  { induction l as [|r l IH]; intros a s ND R0 La Es; cbn [map fold_left].
    - rewrite Es. cbn. f_equal. ring.
    - inversion ND as [|? ? N1 N2]; subst. destruct (add_arrays_ok a (P r) (zlen a) eq_refl (eq_sym (eq_sym (L r (R0 r (or_introl eq_refl)))))) as (L' & A'). 
      cbn [mem existsb]. change (existsb (Z.eqb o) l) with (mem o l). destruct (Z.eqb_spec o r) as [->|Ne].
      + rewrite (IH (add_arrays a (P r)) (s + y)%R N2) by (try assumption; try (intros; apply R0; right; assumption); rewrite A', Es, Ey by lia; reflexivity). replace (mem r l) with false by (symmetry; apply mem_not_In; exact N1). cbn [orb]. f_equal. ring.
      + rewrite (IH (add_arrays a (P r)) s N2); [reflexivity | intros; apply R0; right; assumption | exact L' |]. rewrite A', Es, (Ez r) by (auto; try lia; apply R0; left; reflexivity). cbn. f_equal. ring. }
  assert (RS : exists q, range SIZE = 0 :: q /\ NoDup (0 :: q)). { assert (ER : range SIZE = 0 :: tl (range SIZE)). { pose proof (zlen_range SIZE ltac:(lia)) as LR. pose proof (nthZ_range 0 SIZE 0 ltac:(lia)) as N0. destruct (range SIZE) as [|z q]; [cbn in LR; unfold zlen in LR; cbn in LR; lia|]. change (z = 0) in N0. subst z. reflexivity. } exists (tl (range SIZE)). split; [exact ER|]. rewrite <- ER. apply NoDup_range. }
  destruct RS as (q & ER & ND). assert (RQ : forall r, In r (0 :: q) -> 0 <= r < SIZE) by (intros r Hr; rewrite <- ER in Hr; apply in_range; exact Hr). assert (IO : In o (0 :: q)) by (rewrite <- ER; apply in_range; exact Ho).
  rewrite ER. cbn [map reduce_sum]. inversion ND as [|? ? N1 N2]; subst. destruct (Z.eq_dec o 0) as [->|No].
  - rewrite (G q (P 0) y N2); [|intros; apply RQ; right; assumption | apply L; lia | exact Ey]. replace (mem 0 q) with false by (symmetry; apply mem_not_In; exact N1). f_equal. ring.
  - rewrite (G q (P 0) 0%R N2); [|intros; apply RQ; right; assumption | apply L; lia | apply Ez; auto; lia]. destruct IO as [IO|IO]; [congruence|]. replace (mem o q) with true by (symmetry; apply mem_In; exact IO). f_equal. ring.
Qed.
(** vectors *)
Definition vector (n : Z) (b : list (option R)) (F : Z -> R) : Prop := zlen b = n /\ forall i, 0 <= i < n -> nthZ None b i = Some (F i).
Lemma add_rhs_ok n a F user (f : Z -> R) : vector n a F -> match user with None => forall i, 0 <= i < n -> f i = 0%R | Some u => zlen u = n /\ forall i, 0 <= i < n -> nthZ 0%R u i = f i end ->
  exists b, Model_linsys.add_rhs a user = Ok b /\ vector n b (fun i => F i + f i)%R.
Proof.
  intros (La & Ha) HU. unfold Model_linsys.add_rhs. destruct user as [u|].
  - destruct HU as (Lu & Hu). replace (zlen u =? zlen a) with true by lia. eexists. split; [reflexivity|]. assert (LC : zlen (combine a u) = n) by (unfold zlen in *; rewrite combine_length; lia). split; [rewrite zlen_map; exact LC|]. intros i Hi. rewrite (nthZ_map _ (None, 0%R)) by lia.
    replace (nthZ (None, 0%R) (combine a u) i) with (nthZ None a i, nthZ 0%R u i) by (unfold nthZ; symmetry; apply combine_nth; unfold zlen in *; lia). cbn [fst snd]. rewrite Ha, Hu by exact Hi. reflexivity.
  - exists a. split; [reflexivity|]. split; [exact La|]. intros i Hi. rewrite Ha, HU by exact Hi. f_equal. ring.
Qed.
Lemma reduce_len (P : Z -> list (option R)) (SIZE n : Z) : 0 < SIZE -> (forall r, 0 <= r < SIZE -> zlen (P r) = n) -> zlen (reduce_sum (map P (range SIZE))) = n.
Proof.
  intros HS L. assert (G : forall l a, (forall r, In r l -> 0 <= r < SIZE) -> zlen a = n -> zlen (fold_left add_arrays (map P l) a) = n).
  { induction l as [|r l IH]; intros a R0 La; [exact La|]. cbn [map fold_left]. apply IH; [intros; apply R0; right; assumption|]. destruct (add_arrays_ok a (P r) n La (L r (R0 r (or_introl eq_refl)))) as (A & _). exact A. }
  destruct (range SIZE) as [|z q] eqn:ER; [exfalso; pose proof (zlen_range SIZE ltac:(lia)) as LR; rewrite ER in LR; unfold zlen in LR; cbn in LR; lia|]. cbn [map reduce_sum]. apply G; [intros r Hr|apply L]; apply in_range; rewrite ER; [right; exact Hr | left; reflexivity].
Qed.
