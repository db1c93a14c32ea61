(** * Model_run: an explicit transport computation on all the ranks.
    Models the time loop of manapy/models/tests/test_transport_2d_periodic.py:88-137 and test_transport_3d_periodic.py with order = 1 and without
    diffusion (no calls of compute_cell_gradient, compute_face_gradient and explicitscheme_dissipative: gradients, limiters, dissip_ne and src_ne
    keep the zeros they are created with), on domains of [Model_parallel.setup].  Saving of results is left out.
    Simplification: the ranks run the parts between two collective calls one after the other.  Floats are reals. *)
From Coq Require Import Reals.
From Verif Require Import Py Model_part Model_conn Model_geom Model_interp Model_comm Model_fvm Model_bc Model_domain Model_parallel.
Open Scope Z_scope.

(** core.py:420-424 update_halo_value.  One rank: indsend = zeros(1), the counts are 0 and nbhalos = 0 (communication.py:42, 60), so
    define_halosend reads w_c[0] and nothing is received *)
Definition exchange {V} (SIZE : Z) (comms : list rankcomm) (cell : list (list V)) : res (list (list V)) :=
  if SIZE =? 1 then mapM (fun w => do x <- get w 0; ret []) cell else update_halo_value SIZE comms cell.
(** [var.halo[:] = w], [var.cell[:] = w] *)
Definition write_array (v : variable) (r : Z) (w : list R) : res variable :=
  do h <- set (va_heap v) r w;
  ret {| va_heap := h; va_cell := va_cell v; va_bcs := va_bcs v; va_dirichletfaces := va_dirichletfaces v; va_neumannfaces := va_neumannfaces v;
         va_BCdirichlet := va_BCdirichlet v; va_BCneumann := va_BCneumann v |}.
(** core.py:414-418 update_values *)
Definition update_values (SIZE : Z) (st : setting) (vs : list variable) : res (list variable) :=
  do ws <- mapM cell_of vs;
  do halos <- exchange SIZE (se_comms st) ws;
  mapM (fun r => do D <- get (se_domains st) r; do v <- get vs r; do h <- get halos r; do v <- write_array v r_halo h; update_ghost_value (dom_bc D) v) (range SIZE).

(** the velocity on the cells: u.cell, v.cell, w.cell *)
Definition components (u v w : list R) : list pt := map (fun i => P3 (nthZ 0%R u i) (nthZ 0%R v i) (nthZ 0%R w i)) (range (zlen u)).
(** u.face[:] = px U, ...; u.interpolate_facetocell(), ... (core.py:426-427) *)
Definition cell_velocity (U : pt) (D : domain) (old : list R * list R * list R) : res (list R * list R * list R) :=
  let n := zlen (dm_cellid D) in
  do u <- facetocell (zeros_like (px U) n) (fst (fst old)) (dm_faceid D) (dm_dim D);
  do v <- facetocell (zeros_like (py U) n) (snd (fst old)) (dm_faceid D) (dm_dim D);
  do w <- facetocell (zeros_like (pz U) n) (snd old) (dm_faceid D) (dm_dim D);
  ret (u, v, w).

(** COMM.allreduce(dt, MPI.MIN); [None]: a nan is involved *)
Definition omin (a b : option R) : option R := match a, b with Some x, Some y => Some (Rmin x y) | _, _ => None end.
Definition allreduce_min (l : list (option R)) : option R := match l with [] => None | x :: t => fold_left omin t x end.

(** what a rank holds: the transported variable and the arrays u.cell, v.cell, w.cell *)
Record held_by := { hb_ne : variable; hb_vel : list R * list R * list R }.
(** one rank, the residual and the update of ne; nan: an error *)
Definition total (l : list (option R)) : res (list R) := mapM (fun o => match o with Some x => ret x | None => Err ValueError end) l.
Definition advance_rank (U : pt) (dt : R) (D : domain) (v : variable) : res variable :=
  do w <- cell_of v; do g <- ghost_of v; do h <- get (va_heap v) r_halo;
  let n := zlen (dm_center D) in let nh := zlen (dm_centerh D) in
  let A := {| ad_c := w; ad_ghost := g; ad_halo := h; ad_grad := zeros_like p0 n; ad_gradh := zeros_like p0 nh; ad_psi := zeros_like 0%R n; ad_psih := zeros_like 0%R nh |} in
  do rez <- convective (dm_dim D) 1 (dom_fv D) (dom_lists D) A (zeros_like U (zlen (dm_cellid D))) n;
  do new <- update_new_value w rez (zeros_like 0%R n) (zeros_like 0%R n) (dm_volume D) dt;
  do new <- total new;
  write_array v (va_cell v) new.

(** one turn of the loop (test_transport_2d_periodic.py:103-137) *)
Definition turn_of_loop (U : pt) (cfl : R) (SIZE : Z) (st : setting) (hs : list held_by) : res (R * list held_by) :=
  do vel <- mapM (fun r => do D <- get (se_domains st) r; do s <- get hs r; cell_velocity U D (hb_vel s)) (range SIZE);
  do nes <- update_values SIZE st (map hb_ne hs);
  do dts <- mapM (fun r => do D <- get (se_domains st) r; do u <- get vel r;
                  time_step (dm_dim D) (components (fst (fst u)) (snd (fst u)) (snd u)) (dm_normal D) cfl (dm_mesure D) (dm_volume D) (dm_faceid D) (P3 0 0 0)) (range SIZE);
  match allreduce_min dts with
  | None => Err ValueError
  | Some dt =>
    do hs' <- mapM (fun r => do D <- get (se_domains st) r; do v <- get nes r; do u <- get vel r; do v <- advance_rank U dt D v; ret {| hb_ne := v; hb_vel := u |}) (range SIZE);
    ret (dt, hs')
  end.
(** while time < tfinal; [None]: not finished after [fuel] turns *)
Fixpoint loop (fuel : nat) (U : pt) (cfl : R) (SIZE : Z) (st : setting) (tfinal time : R) (hs : list held_by) : res (option (R * list held_by)) :=
  if Rlt_dec time tfinal then
    match fuel with
    | O => ret None
    | Datatypes.S fuel => do p <- turn_of_loop U cfl SIZE st hs; loop fuel U cfl SIZE st tfinal (time + fst p)%R (snd p)
    end
  else ret (Some (time, hs)).

(** the whole program: ne = Variable(domain, BC, values), u = v = w = Variable(domain), ne.cell[:] = w0 on each rank, then the loop from time 0 *)
Definition start (bc : list (loc * bctype)) (vs : list (loc * bcval)) (SIZE : Z) (st : setting) (w0 : list (list R)) : res (list held_by) :=
  mapM (fun r => do D <- get (se_domains st) r; do w <- get w0 r; do v <- new_variable (dom_bc D) (Some bc) (Some vs); do v <- write_array v (va_cell v) w;
                 let z := zeros_like 0%R (zlen (dm_center D)) in ret {| hb_ne := v; hb_vel := (z, z, z) |}) (range SIZE).
Definition transport (fuel : nat) (bc : list (loc * bctype)) (vs : list (loc * bcval)) (U : pt) (cfl tfinal : R) (SIZE : Z) (st : setting) (w0 : list (list R)) : res (option (R * list held_by)) :=
  do hs <- start bc vs SIZE st w0; loop fuel U cfl SIZE st tfinal 0%R hs.
