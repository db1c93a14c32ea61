(** * Py: the fragment of Python / numpy semantics the model relies on.
    Exceptions are values; arrays and lists are Coq lists; loops are monadic folds.
    Nothing in this file models a particular function of /repo. *)
From Coq Require Export List ZArith Lia Bool.
From Coq Require Import ZifyBool.
Export ListNotations.
Open Scope Z_scope.

(** Python exceptions that the modelled code can raise.  [ZeroDivision] stands for a
    floating-point division by zero (inf/nan in compiled kernels). *)
Inductive exn :=
| IndexError | KeyError | ZeroDivision | ValueError | AttributeError
| UnboundLocalError | TypeError | NameError | AssertionError.

Inductive res (A : Type) := Ok (a : A) | Err (e : exn).
Arguments Ok {A} a.
Arguments Err {A} e.

Definition bind {A B} (m : res A) (k : A -> res B) : res B :=
  match m with Ok a => k a | Err e => Err e end.
Notation "'do' x <- m ; k" := (bind m (fun x => k))
  (at level 200, x pattern, m at level 100, k at level 200, right associativity).
Notation "'ret' x" := (Ok x) (at level 100).

(** [len(l)] *)
Definition zlen {A} (l : list A) : Z := Z.of_nat (length l).

(** [range(n)] and [range(a, b)] *)
Definition range (n : Z) : list Z := map Z.of_nat (seq 0 (Z.to_nat n)).
Definition range2 (a b : Z) : list Z := map (fun k => a + k) (range (b - a)).

(** [l[i]] with Python's negative-index wrap *)
Definition get {A} (l : list A) (i : Z) : res A :=
  let j := if i <? 0 then i + zlen l else i in
  if j <? 0 then Err IndexError
  else match nth_error l (Z.to_nat j) with Some x => Ok x | None => Err IndexError end.

Fixpoint list_set {A} (l : list A) (n : nat) (v : A) : list A :=
  match l, n with
  | [], _ => []
  | _ :: t, O => v :: t
  | h :: t, S m => h :: list_set t m v
  end.

(** [l[i] = v] *)
Definition set {A} (l : list A) (i : Z) (v : A) : res (list A) :=
  let j := if i <? 0 then i + zlen l else i in
  if (j <? 0) || (zlen l <=? j) then Err IndexError
  else Ok (list_set l (Z.to_nat j) v).

(** [l[i][j]] and [l[i][j] = v] *)
Definition get2 {A} (l : list (list A)) (i j : Z) : res A :=
  do r <- get l i; get r j.
Definition set2 {A} (l : list (list A)) (i j : Z) (v : A) : res (list (list A)) :=
  do r <- get l i; do r' <- set r j v; set l i r'.

(** [l[i].append(v)] and [l[i].extend(v)] on a list of lists *)
Definition append_at {A} (l : list (list A)) (i : Z) (v : A) : res (list (list A)) :=
  do r <- get l i; set l i (r ++ [v]).
Definition extend_at {A} (l : list (list A)) (i : Z) (v : list A) : res (list (list A)) :=
  do r <- get l i; set l i (r ++ v).

(** [for x in l: s = f(s, x)] *)
Fixpoint foldM {S X} (f : S -> X -> res S) (l : list X) (s : S) : res S :=
  match l with
  | [] => Ok s
  | x :: t => do s' <- f s x; foldM f t s'
  end.

Fixpoint mapM {X Y} (f : X -> res Y) (l : list X) : res (list Y) :=
  match l with
  | [] => Ok []
  | x :: t => do y <- f x; do r <- mapM f t; Ok (y :: r)
  end.

(** [x in l] for integers *)
Definition mem (x : Z) (l : list Z) : bool := existsb (Z.eqb x) l.

(** [numpy.unique(l)] on integers: the distinct values in increasing order *)
Fixpoint ins (x : Z) (l : list Z) : list Z :=
  match l with
  | [] => [x]
  | y :: t => if x <? y then x :: y :: t else if x =? y then y :: t else y :: ins x t
  end.
Definition np_unique (l : list Z) : list Z := fold_right ins [] l.

(** [numpy.sort(l)] on integers (duplicates kept) *)
Fixpoint ins_dup (x : Z) (l : list Z) : list Z :=
  match l with
  | [] => [x]
  | y :: t => if x <=? y then x :: y :: t else y :: ins_dup x t
  end.
Definition np_sort (l : list Z) : list Z := fold_right ins_dup [] l.

(** dictionaries with integer-pair keys (insertion order, as OrderedDict) *)
Definition key2 := (Z * Z)%type.
Definition key2_eqb (a b : key2) : bool := (fst a =? fst b) && (snd a =? snd b).
Definition dict2 (V : Type) := list (key2 * V).
Fixpoint dget_opt {V} (d : dict2 V) (k : key2) : option V :=
  match d with
  | [] => None
  | (k', v) :: t => if key2_eqb k' k then Some v else dget_opt t k
  end.
(** [d[k]] *)
Definition dget {V} (d : dict2 V) (k : key2) : res V :=
  match dget_opt d k with Some v => Ok v | None => Err KeyError end.
(** [d[k] = v] *)
Fixpoint dset {V} (d : dict2 V) (k : key2) (v : V) : dict2 V :=
  match d with
  | [] => [(k, v)]
  | (k', v') :: t => if key2_eqb k' k then (k', v) :: t else (k', v') :: dset t k v
  end.
(** [d.setdefault(k, []).append(x)] *)
Definition dappend {A} (d : dict2 (list A)) (k : key2) (x : A) : dict2 (list A) :=
  match dget_opt d k with
  | Some l => dset d k (l ++ [x])
  | None => dset d k [x]
  end.

(** total accessors, used in specifications only under a range hypothesis *)
Definition nthZ {A} (d : A) (l : list A) (i : Z) : A := nth (Z.to_nat i) l d.
Definition upd {A} (l : list A) (i : Z) (v : A) : list A := list_set l (Z.to_nat i) v.

(** dictionaries with integer keys *)
Definition dictZ (V : Type) := list (Z * V).
Fixpoint zget_opt {V} (d : dictZ V) (k : Z) : option V :=
  match d with
  | [] => None
  | (k', v) :: t => if k' =? k then Some v else zget_opt t k
  end.
Definition zget {V} (d : dictZ V) (k : Z) : res V :=
  match zget_opt d k with Some v => Ok v | None => Err KeyError end.
Fixpoint zset {V} (d : dictZ V) (k : Z) (v : V) : dictZ V :=
  match d with
  | [] => [(k, v)]
  | (k', v') :: t => if k' =? k then (k', v) :: t else (k', v') :: zset t k v
  end.
