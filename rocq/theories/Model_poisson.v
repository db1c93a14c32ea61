(** * Model_poisson: the linear system of a diffusion (Poisson) problem on all the ranks.
    Models the program  L = LinearSystem(domain=domain, var=var, solver=..., rhs=...); L.assembly(); L.solve(rhs=..., compute_grad=...)
    (manapy/ast/linearsystem.py:27-138, 184-246, 257-268, 320-430, called as in manapy/models/tests/test_darcy_2d.py and models/StreamerModel/core.py:20-40) run by all the ranks
    together on domains of [Model_parallel.setup], for the solvers "mumps" and "petsc" (any number of ranks) and "spsolve", "umfpack" (one rank).
    The numerical solvers themselves are not modelled: [backend] is any function from the matrix (the triplets of all the ranks; equal positions
    are added, as MUMPS, PETSc with addv=True and scipy do) and the right-hand side to a vector.  Left out: the solver options, the debug flag, destroy.
    Simplifications: the ranks run the parts between two collective calls one after the other; a nan stops the run (an error); floats are reals. *)
From Coq Require Import Reals.
From Verif Require Import Py Model_part Model_label Model_conn Model_geom Model_interp Model_comm Model_fvm Model_bc Model_linsys Model_domain Model_parallel Model_run Model_run2.
Open Scope Z_scope.

(** what the kernels get on one rank: linearsystem.py:48-51, 65-75, 198-246 *)
Definition sys_of (D : domain) (v : variable) : lsys := dom_sys D (va_BCdirichlet v).
Definition lists_of (D : domain) (v : variable) : sylists := dom_syslists D (va_dirichletfaces v).
(** linearsystem.py:82: comm.allreduce(localsize, op=SUM) *)
Definition global_size (st : setting) : Z := fold_right Z.add 0 (map (fun D => zlen (dm_center D)) (se_domains st)).
(** comm.reduce(x, op=MPI.SUM, root=0) of arrays of one length *)
Definition add_arrays (a b : list (option R)) : list (option R) := map (fun p => oadd (fst p) (snd p)) (combine a b).
Definition reduce_sum (l : list (list (option R))) : list (option R) := match l with [] => [] | a :: t => fold_left add_arrays t a end.

(** what the constructor leaves on each rank: domain.Pbordnode and Pbordface (attributes of the domain: l.45-46), and the attributes of the system *)
Record system := { ss_bord : list bord; ss_lin : list linsys }.
(** linearsystem.py:45-138 on all the ranks; [user]: the argument rhs of each rank *)
Definition new_system (SIZE : Z) (st : setting) (vs : list variable) (sol : option solver) (user : list (option (list R))) : res system :=
  do bs <- mapM (fun r => do D <- get (se_domains st) r; do v <- get vs r; pbord (dom_bc D) v) (range SIZE);
  do gl <- (match sol with
            | Some SMumps => mapM (fun r => do D <- get (se_domains st) r; do v <- get vs r; do B <- get bs r; global_rhs (dm_dim D) (global_size st) (sys_of D v) (lists_of D v) B) (range SIZE)
            | _ => ret []
            end);
  do ls <- mapM (fun r => do D <- get (se_domains st) r; do v <- get vs r; do u <- get user r;
                  new_linsys SIZE r (global_size st) (fun _ => reduce_sum gl) (sys_of D v) (dom_bc D) v (lists_of D v) sol u) (range SIZE);
  ret {| ss_bord := bs; ss_lin := ls |}.

(** linearsystem.py:226-246 on all the ranks: the triplets of each rank; the arrays are new zeros (l.77-79) *)
Definition assemble (SIZE : Z) (st : setting) (vs : list variable) : res (list (list entry)) :=
  mapM (fun r => do D <- get (se_domains st) r; do v <- get vs r; assembly (dm_dim D) (sys_of D v) (lists_of D v)) (range SIZE).
(** linearsystem.py:260-268 (petsc), one rank: counts of np.unique(row); counts[i] fails when fewer rows than cells occur.  The counts only size buffers. *)
Definition petsc_counts (D : domain) (es : list entry) : res (list Z) :=
  let rows := map (fun e => fst (fst e)) es in
  let counts := map (fun u => zlen (filter (Z.eqb u) rows)) (np_unique rows) in
  mapM (fun i => get counts i) (range (zlen (dm_center D))).

(** linearsystem.py:345-350, 359-363, 373-377, 395-399: [rhs + self.rhs0]; [len(None)] is a TypeError *)
Definition given_rhs (base : option (list (option R))) (user : option (list R)) : res (option (list (option R))) :=
  match user, base with
  | None, _ => ret base
  | Some _, None => Err TypeError
  | Some _, Some a => do s <- add_rhs a user; ret (Some s)
  end.
(** linearsystem.py:401-405: rhs.setValues(loctoglob[i], rhs[i]) on every rank (INSERT); the vector starts with zeros *)
Definition petsc_vector (SIZE : Z) (st : setting) (rs : list (list (option R))) : res (list (option R)) :=
  foldM (fun b r => do D <- get (se_domains st) r; do x <- get rs r;
           foldM (fun b i => do g <- get (dm_loctoglob D) i; do y <- get x i; set b g y) (range (zlen (dm_center D))) b) (range SIZE) (zeros_o (global_size st)).
(** the right-hand side handed to the numerical solver *)
Definition handed_rhs (SIZE : Z) (st : setting) (sol : solver) (ss : system) (user : list (option (list R))) : res (list (option R)) :=
  do rs <- mapM (fun r => do s <- get (ss_lin ss) r; do u <- get user r; given_rhs (li_rhs s) u) (range SIZE);
  match sol with
  | SPetsc => do rs <- mapM (fun o => match o with Some x => ret x | None => Err TypeError end) rs; petsc_vector SIZE st rs
  | _ => do o <- get rs 0; match o with Some b => ret b | None => Err TypeError end
  end.
(** linearsystem.py:387-390, 413-426: the solution is put in the order of the ranks, cut up and written to var.cell *)
Definition deliver (SIZE : Z) (st : setting) (vs : list variable) (x : list R) : res (list variable) :=
  do tc <- get (se_tc st) 0;
  do parts <- solve_scatter x (zeros_like 0%R (global_size st)) tc (map (fun D => zlen (dm_center D)) (se_domains st)) (global_size st);
  mapM (fun r => do v <- get vs r; do w <- get parts r; write_array v (va_cell v) w) (range SIZE).
(** linearsystem.py:355, 369: var.cell = self.sol binds another array; the boundary conditions keep the old one *)
Definition rebind (v : variable) (x : list R) : variable :=
  {| va_heap := va_heap v ++ [x]; va_cell := zlen (va_heap v); va_bcs := va_bcs v; va_dirichletfaces := va_dirichletfaces v; va_neumannfaces := va_neumannfaces v;
     va_BCdirichlet := va_BCdirichlet v; va_BCneumann := va_BCneumann v |}.
(** linearsystem.py:184-195 compute_Sol_gradient; [g]: gradface(x,y,z) on entry *)
Definition solution_gradient_rank (D : domain) (v : variable) (B : bord) (g : list pt) : res (list pt) :=
  do W <- arrays v; do n <- get (va_heap v) r_node;
  do gs <- compute_P_gradient (dm_dim D) (sys_of D v) B W n (var_lists D v) (map Some g); known gs.
Definition solution_gradient (SIZE : Z) (st : setting) (bs : list bord) (vs : list variable) (g : list (list pt)) : res (list variable * list (list pt)) :=
  do vs <- interpolate_celltonode SIZE st vs;
  do g <- mapM (fun r => do D <- get (se_domains st) r; do v <- get vs r; do B <- get bs r; do g <- get g r; solution_gradient_rank D v B g) (range SIZE);
  ret (vs, g).
(** linearsystem.py:343-430, without compute_grad: the variables after the call.  Any other solver name: nothing happens *)
Definition solve (backend : list entry -> list (option R) -> list R) (SIZE : Z) (st : setting) (sol : solver) (ss : system) (es : list (list entry)) (vs : list variable)
    (user : list (option (list R))) : res (list variable) :=
  match sol with
  | SSpsolve | SUmfpack => do b <- handed_rhs SIZE st sol ss user; mapM (fun r => do v <- get vs r; ret (rebind v (backend (concat es) b))) (range SIZE)
  | SMumps | SPetsc => do b <- handed_rhs SIZE st sol ss user; deliver SIZE st vs (backend (concat es) b)
  | SOther => ret vs
  end.
