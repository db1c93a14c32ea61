(** * Spec_poisson2: the program of the Poisson problem: how the source is passed, and what a linear solver does (C74, C75). *)
From Coq Require Import Reals.
From Verif Require Import Py Model_part Spec_part Spec_conn Model_bc Model_domain Spec_domain Model_parallel Spec_parallel Model_linsys.
From Verif Require Spec_linsys.
Open Scope Z_scope.

(** the solvers that can be used on SIZE ranks *)
Definition usable (SIZE : Z) (sol : solver) : Prop := match sol with SMumps | SPetsc => True | SSpsolve | SUmfpack => SIZE = 1 | SOther => False end.
(** the arguments rhs of the ranks pass the source f (None: no source): with petsc each rank passes the values of its cells, in its order;
    otherwise rank 0 passes the values of all the cells, in the order of the mesh, and the other ranks pass nothing *)
Definition source (sol : solver) (cells : list (list Z)) (SIZE : Z) (st : setting) (user : list (option (list R))) (f : Z -> R) : Prop :=
  forall r, 0 <= r < SIZE -> exists u, get user r = Ok u /\
    let D := domain_of (se_domains st) r in
    match sol, u with
    | SPetsc, None => forall c, iscell_of D c -> f (gcell D c) = 0%R
    | SPetsc, Some a => zlen a = zlen (dm_loctoglob D) /\ forall c, iscell_of D c -> nthZ 0%R a c = f (gcell D c)
    | _, None => r = 0 -> forall c, iscell cells c -> f c = 0%R
    | _, Some a => r = 0 /\ zlen a = zlen cells /\ forall c, iscell cells c -> nthZ 0%R a c = f c
    end.
(** the total source of the constructor and of solve; umfpack forgets the one of the constructor (linearsystem.py:107-113) *)
Definition total (sol : solver) (f0 f : Z -> R) (c : Z) : R := match sol with SUmfpack => f c | _ => (f0 c + f c)%R end.
(** x solves the system of the triplets es (entries at one position are added) with right-hand side b *)
Definition solves (es : list entry) (b : list (option R)) (n : Z) (x : list R) : Prop :=
  zlen x = n /\ forall i, 0 <= i < n -> exists a, Spec_linsys.row_sum es i (nthZ 0%R x) = Some a /\ nthZ None b i = Some a.
