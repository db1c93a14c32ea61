(** * Model_run4: transport in the velocity field of a pressure (Darcy) on all the ranks.
    Models the program of manapy/models/tests/test_darcy_2d.py:79-161 and test_darcy_3d.py:78-167 run by all the ranks together on domains of [Model_parallel.setup]: the linear system of the
    pressure is solved, its gradient gives the velocity at the faces, and a density is transported.  [spread]: compute_face_gradient is called in the loop (test_darcy_3d.py:145;
    commented out in test_darcy_2d.py:141, where the gradient stays the zeros of the constructor).  [backend k]: the numerical solver in turn k (see Model_poisson).
    The initial values are any arrays (pyccel_tools.py:3-34 is not modelled).  Saving of results and destroy are left out.  Simplifications: as in Model_run2 and Model_poisson. *)
From Coq Require Import Reals.
From Verif Require Import Py Model_part Model_label Model_conn Model_geom Model_interp Model_comm Model_fvm Model_bc Model_linsys Model_domain Model_parallel Model_run Model_run2 Model_poisson.
Open Scope Z_scope.

(** Variable(domain=domain) and Variable(domain=domain, BC=..., values=...), then var.cell[:] = w, on every rank *)
Definition made (cond : option (list (loc * bctype) * list (loc * bcval))) (SIZE : Z) (st : setting) (w0 : list (list R)) : res (list variable) :=
  mapM (fun r => do D <- get (se_domains st) r; do w <- get w0 r; do v <- new_variable (dom_bc D) (option_map fst cond) (option_map snd cond); write_array v (va_cell v) w) (range SIZE).

(** what the ranks hold: ne, P, (ne.gradfacex, ...), (P.gradfacex, ...), (u.cell, v.cell, w.cell) *)
Record darcy_held := { dk_ne : list variable; dk_P : list variable; dk_gne : list (list pt); dk_gP : list (list pt); dk_vel : list (list R * list R * list R) }.

(** test_darcy_2d.py:115-116, test_darcy_3d.py:117-119: u.face[:] = P.gradfacex[:], ...; w.face keeps its zeros in two dimensions *)
Definition velocity_faces (D : domain) (g : list pt) : list pt := if dm_dim D =? 2 then map (fun a => P3 (px a) (py a) 0) g else g.
(** test_darcy_2d.py:118-119, test_darcy_3d.py:121-123: u.interpolate_facetocell(), ... (core.py:426-427); not for w in two dimensions *)
Definition velocity_cells (D : domain) (vel : list pt) (old : list R * list R * list R) : res (list R * list R * list R) :=
  do u <- facetocell (map px vel) (fst (fst old)) (dm_faceid D) (dm_dim D);
  do v <- facetocell (map py vel) (snd (fst old)) (dm_faceid D) (dm_dim D);
  if dm_dim D =? 2 then ret (u, v, snd old) else do w <- facetocell (map pz vel) (snd old) (dm_faceid D) (dm_dim D); ret (u, v, w).
(** test_darcy_2d.py:133-139, one rank *)
Definition convective_with (order : Z) (vel : list pt) (D : domain) (v : variable) (G : gradients) : res (list R) :=
  do W <- arrays v;
  convective (dm_dim D) order (dom_fv D) (dom_lists D)
    {| ad_c := w_c W; ad_ghost := w_ghost W; ad_halo := w_halo W; ad_grad := gr_cell G; ad_gradh := gr_halo G; ad_psi := gr_psi G; ad_psih := gr_psih G |}
    vel (zlen (dm_center D)).
(** test_darcy_2d.py:112: L.solve(compute_grad=True) *)
Definition solve_gradient (backend : list entry -> list (option R) -> list R) (SIZE : Z) (st : setting) (sol : solver) (ss : system) (es : list (list entry)) (vs : list variable)
    (user : list (option (list R))) (g : list (list pt)) : res (list variable * list (list pt)) :=
  do vs <- solve backend SIZE st sol ss es vs user; solution_gradient SIZE st (ss_bord ss) vs g.

(** one turn of the loop: test_darcy_2d.py:112-149 *)
Definition darcy_turn (spread : bool) (order : Z) (K : pt) (cfl : R) (SIZE : Z) (st : setting) (sol : solver) (ss : system) (es : list (list entry))
    (backend : list entry -> list (option R) -> list R) (s : darcy_held) : res (R * darcy_held) :=
  do p <- solve_gradient backend SIZE st sol ss es (dk_P s) (map (fun _ => None) (range SIZE)) (dk_gP s);
  do faces <- mapM (fun r => do D <- get (se_domains st) r; do g <- get (snd p) r; ret (velocity_faces D g)) (range SIZE);
  do vel <- mapM (fun r => do D <- get (se_domains st) r; do u <- get faces r; do old <- get (dk_vel s) r; velocity_cells D u old) (range SIZE);
  do nes <- update_values SIZE st (dk_ne s);
  do dts <- mapM (fun r => do D <- get (se_domains st) r; do u <- get vel r;
                  time_step (dm_dim D) (components (fst (fst u)) (snd (fst u)) (snd u)) (dm_normal D) cfl (dm_mesure D) (dm_volume D) (dm_faceid D) K) (range SIZE);
  match allreduce_min dts with
  | None => Err ValueError
  | Some dt =>
    do q <- compute_cell_gradient SIZE st nes;
    do rez <- mapM (fun r => do D <- get (se_domains st) r; do v <- get (fst q) r; do G <- get (snd q) r; do u <- get faces r; convective_with order u D v G) (range SIZE);
    do f <- (if spread then compute_face_gradient SIZE st (fst q) (dk_gne s) else ret (fst q, dk_gne s));
    do new <- mapM (fun r => do D <- get (se_domains st) r; do v <- get (fst f) r; do z <- get rez r; do g <- get (snd f) r; update_rank K dt D v z g) (range SIZE);
    do new <- interpolate_celltonode SIZE st new;
    ret (dt, {| dk_ne := new; dk_P := fst p; dk_gne := snd f; dk_gP := snd p; dk_vel := vel |})
  end.
(** while time < tfinal: test_darcy_2d.py:110; [k]: turns made before; [None]: not finished after [fuel] turns *)
Fixpoint darcy_loop (fuel k : nat) (spread : bool) (order : Z) (K : pt) (cfl : R) (SIZE : Z) (st : setting) (sol : solver) (ss : system) (es : list (list entry))
    (backend : nat -> list entry -> list (option R) -> list R) (tfinal time : R) (s : darcy_held) : res (option (R * darcy_held)) :=
  if Rlt_dec time tfinal then
    match fuel with
    | O => ret None
    | Datatypes.S fuel => do p <- darcy_turn spread order K cfl SIZE st sol ss es (backend k) s;
                          darcy_loop fuel (Datatypes.S k) spread order K cfl SIZE st sol ss es backend tfinal (time + fst p)%R (snd p)
    end
  else ret (Some (time, s)).
(** the start: test_darcy_2d.py:88-107.  [condn], [condP]: BC and values of ne and P; [n0], [p0']: their initial values; [user0]: the argument rhs of LinearSystem *)
Definition darcy_start (condn condP : option (list (loc * bctype) * list (loc * bcval))) (SIZE : Z) (st : setting) (sol : solver) (user0 : list (option (list R))) (n0 p0' : list (list R))
    : res (darcy_held * system * list (list entry)) :=
  do ne <- made condn SIZE st n0;
  do P <- made condP SIZE st p0';
  do ss <- new_system SIZE st P (Some sol) user0;
  do es <- assemble SIZE st P;
  do z <- mapM (fun r => do D <- get (se_domains st) r; ret (zeros_like p0 (zlen (dm_cellid D)))) (range SIZE);
  do u <- mapM (fun r => do D <- get (se_domains st) r; let a := zeros_like 0%R (zlen (dm_center D)) in ret (a, a, a)) (range SIZE);
  ret ({| dk_ne := ne; dk_P := P; dk_gne := z; dk_gP := z; dk_vel := u |}, ss, es).
(** the program *)
Definition darcy (fuel : nat) (spread : bool) (order : Z) (K : pt) (cfl tfinal : R) (condn condP : option (list (loc * bctype) * list (loc * bcval))) (SIZE : Z) (st : setting) (sol : solver)
    (user0 : list (option (list R))) (backend : nat -> list entry -> list (option R) -> list R) (n0 p0' : list (list R)) : res (option (R * darcy_held)) :=
  do s <- darcy_start condn condP SIZE st sol user0 n0 p0';
  darcy_loop fuel 0 spread order K cfl SIZE st sol (snd (fst s)) (snd s) backend tfinal 0%R (fst (fst s)).
