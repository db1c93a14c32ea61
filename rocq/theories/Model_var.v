(** * Model_var: arithmetic of variables, the norm of an error, and the two arrays of the domain that variables and linear systems share.
    Models manapy/ast/core.py:357-412 (operators), 495-510 (norml2), 175-176 and manapy/ast/linearsystem.py:45-61, 192 (domain.Pbordnode, domain.Pbordface).
    Floats are reals. *)
From Coq Require Import Reals.
From Verif Require Import Py Model_part Model_label Model_conn Model_geom Model_interp Model_comm Model_fvm Model_bc Model_linsys Model_domain Model_parallel Model_run Model_run2 Model_poisson.
Open Scope Z_scope.

(** core.py:357-391: res = Variable(self.domain); res.cell = self.cell <op> other.cell.  numpy wants arrays of one length (a length 1 would be repeated: the variables
    are of one domain, so this is left out) *)
Definition elementwise (f : R -> R -> R) (x y : list R) : res (list R) :=
  if zlen x =? zlen y then ret (map (fun p => f (fst p) (snd p)) (combine x y)) else Err ValueError.
Definition operate (f : R -> R -> R) (D : bcdom) (a b : variable) : res variable :=
  do v <- new_variable D None None; do x <- cell_of a; do y <- cell_of b; do z <- elementwise f x y; ret (assign_cell v z).
(** core.py:393-412: (other.cell != 0).all(), otherwise ValueError *)
Definition divide (D : bcdom) (a b : variable) : res variable :=
  do v <- new_variable D None None; do x <- cell_of a; do y <- cell_of b;
  if forallb (fun t => if Req_EM_T t 0 then false else true) y then do z <- elementwise Rdiv x y; ret (assign_cell v z) else Err ValueError.
(** on all the ranks: no communication takes place *)
Definition operate_all (f : R -> R -> R) (SIZE : Z) (st : setting) (l1 l2 : list variable) : res (list variable) :=
  mapM (fun r => do D <- get (se_domains st) r; do a <- get l1 r; do b <- get l2 r; operate f (dom_bc D) a b) (range SIZE).
Definition divide_all (SIZE : Z) (st : setting) (l1 l2 : list variable) : res (list variable) :=
  mapM (fun r => do D <- get (se_domains st) r; do a <- get l1 r; do b <- get l2 r; divide (dom_bc D) a b) (range SIZE).

(** np.linalg.norm(x, ord=1) and (x, ord=2) of a vector *)
Definition vector_norm (order : Z) (x : list R) : R :=
  if order =? 1 then fold_right Rplus 0%R (map Rabs x) else sqrt (fold_right Rplus 0%R (map (fun t => t * t)%R x)).
(** core.py:495-510 norml2 on one rank, for the orders 1 (the default) and 2.  A division by 0 gives nan or inf: None *)
Definition norml2 (D : domain) (v : variable) (exact : list R) (order : option Z) : res (option R) :=
  let order := match order with None => 1 | Some o => o end in
  if negb (zlen (dm_center D) =? zlen exact) then Err AssertionError
  else
    do w <- cell_of v;
    do e <- mapM (fun i => do x <- get w i; do y <- get exact i; do m <- get (dm_volume D) i; ret (Rabs (x - y) * m)%R) (range (zlen exact));
    do x <- mapM (fun i => do y <- get exact i; do m <- get (dm_volume D) i; ret (Rabs y * m)%R) (range (zlen exact));
    ret (if Req_EM_T (vector_norm order x) 0 then None else Some (vector_norm order e / vector_norm order x)%R).

(** what a statement of a program does to domain.Pbordnode and domain.Pbordface: constructing a variable (also by an operator) binds them to new zeros
    (core.py:175-176), constructing a linear system to its own boundary data (linearsystem.py:45-61), everything else leaves them *)
Inductive event := MadeVariable | MadeSystem (ss : system) | Otherwise.
Definition fresh_bord (D : domain) : bord := {| pb_node := zeros_like 0%R (zlen (dm_vertex D)); pb_face := zeros_like 0%R (zlen (dm_name D)) |}.
Definition shared_step (st : setting) (bs : list bord) (e : event) : list bord :=
  match e with MadeVariable => map fresh_bord (se_domains st) | MadeSystem ss => ss_bord ss | Otherwise => bs end.
Definition shared (st : setting) (es : list event) : list bord := fold_left (shared_step st) es [].
(** linearsystem.py:184-195 with the two arrays read from the domain, after the statements es *)
Definition gradient_after (SIZE : Z) (st : setting) (es : list event) (l : list variable) (g : list (list pt)) : res (list variable * list (list pt)) :=
  solution_gradient SIZE st (shared st es) l g.
