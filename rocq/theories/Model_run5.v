(** * Model_run5: the streamer program on all the ranks.
    Models the programs manapy/models/tests/test_streamer_2d.py:87-172 (in three dimensions with the kernels of that dimension) and manapy/models/tests/test_streamer_2d_bis.py:60-113 with
    the methods of StreamerModel (manapy/models/StreamerModel/core.py:65-151) run by all the ranks together on domains of [Model_parallel.setup], for the solvers "mumps" and "petsc":
    the potential of the charge is computed, its gradient gives the field, the field the drift of the electrons, and electrons and ions are advanced.
    [fresh]: the gradients of the cells are computed in every turn (test_streamer_2d.py:139), otherwise only if order = 2 (core.py:88-89).
    [saves k dt]: in turn k (from 0) the values at the nodes are interpolated for saving (always in test_streamer_2d.py:155; test_streamer_2d_bis.py:100-102: [saves_bis]).
    [backend k]: the numerical solver in turn k (see Model_poisson).  The initial densities are any arrays (their formulas: Model_streamer).
    Of the ions only the array ni.cell is kept: nothing reads their ghosts, halos and gradients.  Saving itself and destroy are left out.
    Simplifications: as in Model_run2 and Model_poisson; the terms are those of C62, with which all the arrays exist. *)
From Coq Require Import Reals.
From Verif Require Import Py Model_part Model_label Model_conn Model_geom Model_interp Model_comm Model_fvm Model_bc Model_linsys Model_domain Model_parallel Model_run Model_run2 Model_poisson Model_run4.
From Verif Require Model_streamer.
Open Scope Z_scope.

(** what the ranks hold: ne, ni.cell, P, (ne.gradfacex, ...), (P.gradfacex, ...), rhs_updated, (Ex.face, ...), (u.face, ...) *)
Record streamer_held := { sk_ne : list variable; sk_ni : list (list R); sk_P : list variable; sk_gne : list (list pt); sk_gP : list (list pt);
  sk_rhs : list (list R); sk_Ef : list (list pt); sk_vf : list (list pt) }.

(** core.py:115, test_streamer_2d.py:119: update_rhs_loc with petsc (core.py:74-79), otherwise update_rhs_glob *)
Definition charge_rank (sol : solver) (D : domain) (v : variable) (ni rhs : list R) : res (list R) :=
  do ne <- cell_of v;
  match sol with SPetsc => Model_streamer.update_rhs_loc ne ni (dm_loctoglob D) rhs | _ => Model_streamer.update_rhs_glob ne ni (dm_loctoglob D) rhs end.
(** core.py:117-120: what each rank passes as rhs to L.solve; comm.reduce returns None on the ranks that are not the root *)
Definition passed_rhs (sol : solver) (SIZE : Z) (st : setting) (rhs : list (list R)) : list (option (list R)) :=
  match sol with
  | SPetsc => map Some rhs
  | _ => map (fun r => if r =? 0 then Some (Model_streamer.reduce_sum (global_size st) rhs) else None) (range SIZE)
  end.
(** core.py:104-106, 150-151, one rank; ni.convective and ni.dissipation are zero from construction and never written *)
Definition advance_streamer (dt : R) (D : domain) (v : variable) (ni rez : list R) (vf Ef g : list pt) (src : list (R * R)) : res (variable * list R) :=
  let n := zlen (dm_center D) in
  do dis <- Model_streamer.dissipative_streamer vf Ef g (dm_cellid D) (dm_normal D) (dm_name D) n;
  do ne <- cell_of v;
  do new <- Model_streamer.update_streamer_flux ne ni rez (zeros_like 0%R n) dis (zeros_like 0%R n) src dt (dm_volume D);
  do a <- known (map fst new); do b <- known (map snd new);
  do v <- write_array v (va_cell v) a; ret (v, b).
(** the gradients of a new variable: manapy/ast/core.py:129-143 *)
Definition no_gradients (D : domain) : gradients :=
  {| gr_cell := zeros_like p0 (zlen (dm_center D)); gr_psi := zeros_like 0%R (zlen (dm_center D)); gr_halo := zeros_like p0 (zlen (dm_hext D)); gr_psih := zeros_like 0%R (zlen (dm_hext D)) |}.

(** one turn of the loop: test_streamer_2d.py:119-155; core.py:113-151 called as in test_streamer_2d_bis.py:87-102 *)
Definition streamer_turn (fresh : bool) (order : Z) (cfl : R) (save : R -> res bool) (SIZE : Z) (st : setting) (sol : solver) (ss : system) (es : list (list entry))
    (backend : list entry -> list (option R) -> list R) (s : streamer_held) : res (R * streamer_held) :=
  do rhs <- mapM (fun r => do D <- get (se_domains st) r; do v <- get (sk_ne s) r; do ni <- get (sk_ni s) r; do y <- get (sk_rhs s) r; charge_rank sol D v ni y) (range SIZE);
  do p <- solve_gradient backend SIZE st sol ss es (sk_P s) (passed_rhs sol SIZE st rhs) (sk_gP s);
  do Ef <- mapM (fun r => do g <- get (snd p) r; do e <- get (sk_Ef s) r; Model_streamer.compute_el_field g e) (range SIZE);
  do vel <- mapM (fun r => do D <- get (se_domains st) r; do e <- get Ef r; do u <- get (sk_vf s) r; Model_streamer.compute_velocity e u (dm_faceid D) (dm_dim D)) (range SIZE);
  do dts <- mapM (fun r => do D <- get (se_domains st) r; do u <- get vel r;
                  Model_streamer.time_step_streamer (snd (fst u)) (snd u) cfl (dm_normal D) (dm_mesure D) (dm_volume D) (dm_faceid D) (dm_dim D)) (range SIZE);
  match allreduce_min dts with
  | None => Err ValueError
  | Some dt =>
    do src <- mapM (fun r => do D <- get (se_domains st) r; do v <- get (sk_ne s) r; do u <- get vel r; do ne <- cell_of v; Model_streamer.source_streamer ne (snd (fst u)) (snd u) (dm_center D) 0) (range SIZE);
    do q <- (if fresh || (order =? 2) then compute_cell_gradient SIZE st (sk_ne s) else ret (sk_ne s, map no_gradients (se_domains st)));
    do rez <- mapM (fun r => do D <- get (se_domains st) r; do v <- get (fst q) r; do G <- get (snd q) r; do u <- get vel r; convective_with order (fst (fst u)) D v G) (range SIZE);
    do f <- compute_face_gradient SIZE st (fst q) (sk_gne s);
    do new <- mapM (fun r => do D <- get (se_domains st) r; do v <- get (fst f) r; do ni <- get (sk_ni s) r; do z <- get rez r; do u <- get vel r; do e <- get Ef r; do g <- get (snd f) r; do sr <- get src r;
                    advance_streamer dt D v ni z (fst (fst u)) e g sr) (range SIZE);
    do b <- save dt;
    do nes <- (if b : bool then interpolate_celltonode SIZE st (map fst new) else ret (map fst new));
    ret (dt, {| sk_ne := nes; sk_ni := map snd new; sk_P := fst p; sk_gne := snd f; sk_gP := snd p; sk_rhs := rhs; sk_Ef := Ef; sk_vf := map (fun u => fst (fst u)) vel |})
  end.
(** while time < tfinal: test_streamer_2d.py:116, test_streamer_2d_bis.py:84; [k]: turns made before; [None]: not finished after [fuel] turns *)
Fixpoint streamer_loop (fuel k : nat) (fresh : bool) (order : Z) (cfl : R) (saves : nat -> R -> res bool) (SIZE : Z) (st : setting) (sol : solver) (ss : system) (es : list (list entry))
    (backend : nat -> list entry -> list (option R) -> list R) (tfinal time : R) (s : streamer_held) : res (option (R * streamer_held)) :=
  if Rlt_dec time tfinal then
    match fuel with
    | O => ret None
    | Datatypes.S fuel => do p <- streamer_turn fresh order cfl (saves k) SIZE st sol ss es (backend k) s;
                          streamer_loop fuel (Datatypes.S k) fresh order cfl saves SIZE st sol ss es backend tfinal (time + fst p)%R (snd p)
    end
  else ret (Some (time, s)).
(** the start: test_streamer_2d.py:87-113; core.py:46-79 and test_streamer_2d_bis.py:60-79.  [condn], [condP]: BC and values of ne and P; [n0], [i0], [p0']: the initial ne.cell, ni.cell and P.cell *)
Definition streamer_start (condn condP : option (list (loc * bctype) * list (loc * bcval))) (SIZE : Z) (st : setting) (sol : solver) (n0 i0 p0' : list (list R))
    : res (streamer_held * system * list (list entry)) :=
  do ne <- made condn SIZE st n0;
  do P <- made condP SIZE st p0';
  do ss <- new_system SIZE st P (Some sol) (map (fun _ => None) (range SIZE));
  do es <- assemble SIZE st P;
  do z <- mapM (fun r => do D <- get (se_domains st) r; ret (zeros_like p0 (zlen (dm_cellid D)))) (range SIZE);
  do rhs <- mapM (fun r => do D <- get (se_domains st) r; ret (zeros_like 0%R (match sol with SPetsc => zlen (dm_center D) | _ => global_size st end))) (range SIZE);
  ret ({| sk_ne := ne; sk_ni := i0; sk_P := P; sk_gne := z; sk_gP := z; sk_rhs := rhs; sk_Ef := z; sk_vf := z |}, ss, es).
(** the program *)
Definition streamer (fuel : nat) (fresh : bool) (order : Z) (cfl tfinal : R) (saves : nat -> R -> res bool) (condn condP : option (list (loc * bctype) * list (loc * bcval))) (SIZE : Z) (st : setting)
    (sol : solver) (backend : nat -> list entry -> list (option R) -> list R) (n0 i0 p0' : list (list R)) : res (option (R * streamer_held)) :=
  do s <- streamer_start condn condP SIZE st sol n0 i0 p0';
  streamer_loop fuel 0 fresh order cfl saves SIZE st sol (snd (fst s)) (snd s) backend tfinal 0%R (fst (fst s)).
(** test_streamer_2d.py:155 *)
Definition saves_script (k : nat) (dt : R) : res bool := ret true.
(** test_streamer_2d_bis.py:94, 100: tot = int(tfinal/dt/50); niter == 1 or niter % tot == 0 *)
Definition saves_bis (tfinal : R) (k : nat) (dt : R) : res bool :=
  match k with
  | O => ret true
  | _ => let tot := Int_part (tfinal / dt / 50)%R in if tot =? 0 then Err ZeroDivision else ret ((Z.of_nat k + 1) mod tot =? 0)
  end.
