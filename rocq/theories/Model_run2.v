(** * Model_run2: interpolation to the nodes, gradients and the complete transport loop on all the ranks.
    Models manapy/ast/core.py:429-487 (Variable.interpolate_celltonode, compute_cell_gradient, compute_face_gradient) called by all the ranks together, and the
    time loop of manapy/models/tests/test_transport_2d_periodic.py:97-140 (test_transport_3d_periodic.py) with any order and any diffusion coefficients, on domains of
    [Model_parallel.setup].  Saving of results is left out.  Simplifications: the ranks run the parts between two collective calls one after the other;
    a nan stops the run (an error); floats are reals. *)
From Coq Require Import Reals.
From Verif Require Import Py Model_part Model_label Model_conn Model_geom Model_interp Model_comm Model_fvm Model_bc Model_domain Model_parallel Model_run.
Open Scope Z_scope.

(** the arrays var.cell, var.ghost, var.halo, var.haloghost handed to the kernels *)
Definition arrays (v : variable) : res values :=
  do w <- cell_of v; do g <- ghost_of v; do h <- get (va_heap v) r_halo; do hg <- get (va_heap v) r_haloghost;
  ret {| w_c := w; w_ghost := g; w_halo := h; w_haloghost := hg |}.
Definition known {A} (l : list (option A)) : res (list A) := mapM (fun o => match o with Some x => ret x | None => Err ValueError end) l.

(** core.py:433-436, one rank *)
Definition node_rank (D : domain) (v : variable) : res variable :=
  do W <- arrays v; do n <- centertovertex (dm_dim D) (dom_node D) (dm_nodevar D) W; do n <- known n; write_array v r_node n.
(** core.py:429-436 interpolate_celltonode *)
Definition interpolate_celltonode (SIZE : Z) (st : setting) (vs : list variable) : res (list variable) :=
  do vs <- update_values SIZE st vs;
  mapM (fun r => do D <- get (se_domains st) r; do v <- get vs r; node_rank D v) (range SIZE).

(** gradcell(x,y,z), psi, gradhalocell(x,y,z), psihalo *)
Record gradients := { gr_cell : list pt; gr_psi : list R; gr_halo : list pt; gr_psih : list R }.
(** core.py:444-455, one rank *)
Definition gradient_rank (D : domain) (v : variable) : res (list pt * list R) :=
  do W <- arrays v; do gs <- cell_gradient (dm_dim D) (dom_cell D) W; do gs <- known gs;
  do psi <- barthlimiter (dm_dim D) (dom_lim D) W gs; ret (gs, psi).
(** core.py:439-474 compute_cell_gradient *)
Definition compute_cell_gradient (SIZE : Z) (st : setting) (vs : list variable) : res (list variable * list gradients) :=
  do vs <- update_values SIZE st vs;
  do gp <- mapM (fun r => do D <- get (se_domains st) r; do v <- get vs r; gradient_rank D v) (range SIZE);
  do hx <- exchange SIZE (se_comms st) (map (fun p => map px (fst p)) gp);
  do hy <- exchange SIZE (se_comms st) (map (fun p => map py (fst p)) gp);
  do hz <- exchange SIZE (se_comms st) (map (fun p => map pz (fst p)) gp);
  do hp <- exchange SIZE (se_comms st) (map snd gp);
  do gs <- mapM (fun r => do p <- get gp r; do x <- get hx r; do y <- get hy r; do z <- get hz r; do q <- get hp r;
                          ret {| gr_cell := fst p; gr_psi := snd p; gr_halo := components x y z; gr_psih := q |}) (range SIZE);
  ret (vs, gs).

(** the lists of faces handed to the face gradient: domain._innerfaces, periodicboundaryfaces, halofaces, var.dirichletfaces, var.neumannfaces *)
Definition var_lists (D : domain) (v : variable) : facelists :=
  {| fl_inner := ls_inner (dom_lists D); fl_periodic := ls_periodic (dom_lists D); fl_halo := ls_halo (dom_lists D);
     fl_dirichlet := va_dirichletfaces v; fl_neumann := va_neumannfaces v |}.
(** core.py:479-487, one rank; [g]: gradface(x,y,z) on entry *)
Definition face_rank (D : domain) (v : variable) (g : list pt) : res (list pt) :=
  do W <- arrays v; do n <- get (va_heap v) r_node;
  do gs <- face_gradient (dm_dim D) (dom_face D) (dm_diamond D) (var_lists D v) W n (map Some g); known gs.
(** core.py:476-487 compute_face_gradient *)
Definition compute_face_gradient (SIZE : Z) (st : setting) (vs : list variable) (g : list (list pt)) : res (list variable * list (list pt)) :=
  do vs <- interpolate_celltonode SIZE st vs;
  do g <- mapM (fun r => do D <- get (se_domains st) r; do v <- get vs r; do g <- get g r; face_rank D v g) (range SIZE);
  ret (vs, g).

(** what a rank holds: the variable, u.cell, v.cell, w.cell and gradface(x,y,z) *)
Record full_held := { fh_ne : variable; fh_vel : list R * list R * list R; fh_face : list pt }.
(** explicitscheme_convective_2d/3d (..., order=order) on one rank *)
Definition convective_rank (order : Z) (U : pt) (D : domain) (v : variable) (G : gradients) : res (list R) :=
  do W <- arrays v;
  convective (dm_dim D) order (dom_fv D) (dom_lists D)
    {| ad_c := w_c W; ad_ghost := w_ghost W; ad_halo := w_halo W; ad_grad := gr_cell G; ad_gradh := gr_halo G; ad_psi := gr_psi G; ad_psih := gr_psih G |}
    (zeros_like U (zlen (dm_cellid D))) (zlen (dm_center D)).
(** explicitscheme_dissipative and update_new_value on one rank *)
Definition update_rank (K : pt) (dt : R) (D : domain) (v : variable) (rez : list R) (g : list pt) : res variable :=
  let n := zlen (dm_center D) in
  do dis <- dissipative (dm_cellid D) (dm_normal D) g (dm_name D) K n;
  do w <- cell_of v; do new <- update_new_value w rez dis (zeros_like 0%R n) (dm_volume D) dt; do new <- known new;
  write_array v (va_cell v) new.
(** one turn of the loop *)
Definition full_turn (order : Z) (U K : pt) (cfl : R) (SIZE : Z) (st : setting) (hs : list full_held) : res (R * list full_held) :=
  do vel <- mapM (fun r => do D <- get (se_domains st) r; do s <- get hs r; cell_velocity U D (fh_vel s)) (range SIZE);
  do nes <- update_values SIZE st (map fh_ne hs);
  do dts <- mapM (fun r => do D <- get (se_domains st) r; do u <- get vel r;
                  time_step (dm_dim D) (components (fst (fst u)) (snd (fst u)) (snd u)) (dm_normal D) cfl (dm_mesure D) (dm_volume D) (dm_faceid D) K) (range SIZE);
  match allreduce_min dts with
  | None => Err ValueError
  | Some dt =>
    do p <- compute_cell_gradient SIZE st nes;
    do rez <- mapM (fun r => do D <- get (se_domains st) r; do v <- get (fst p) r; do G <- get (snd p) r; convective_rank order U D v G) (range SIZE);
    do q <- compute_face_gradient SIZE st (fst p) (map fh_face hs);
    do new <- mapM (fun r => do D <- get (se_domains st) r; do v <- get (fst q) r; do z <- get rez r; do g <- get (snd q) r; update_rank K dt D v z g) (range SIZE);
    do new <- interpolate_celltonode SIZE st new;
    do hs' <- mapM (fun r => do v <- get new r; do u <- get vel r; do g <- get (snd q) r; ret {| fh_ne := v; fh_vel := u; fh_face := g |}) (range SIZE);
    ret (dt, hs')
  end.
(** while time < tfinal; [None]: not finished after [fuel] turns *)
Fixpoint full_loop (fuel : nat) (order : Z) (U K : pt) (cfl : R) (SIZE : Z) (st : setting) (tfinal time : R) (hs : list full_held) : res (option (R * list full_held)) :=
  if Rlt_dec time tfinal then
    match fuel with
    | O => ret None
    | Datatypes.S fuel => do p <- full_turn order U K cfl SIZE st hs; full_loop fuel order U K cfl SIZE st tfinal (time + fst p)%R (snd p)
    end
  else ret (Some (time, hs)).
(** the program: ne = Variable(domain, BC, values), u = v = w = Variable(domain), ne.cell[:] = w0 on each rank, then the loop from time 0 *)
Definition full_start (bc : list (loc * bctype)) (vs : list (loc * bcval)) (SIZE : Z) (st : setting) (w0 : list (list R)) : res (list full_held) :=
  mapM (fun r => do D <- get (se_domains st) r; do w <- get w0 r; do v <- new_variable (dom_bc D) (Some bc) (Some vs); do v <- write_array v (va_cell v) w;
                 let z := zeros_like 0%R (zlen (dm_center D)) in ret {| fh_ne := v; fh_vel := (z, z, z); fh_face := zeros_like p0 (zlen (dm_cellid D)) |}) (range SIZE).
Definition full_transport (fuel : nat) (order : Z) (bc : list (loc * bctype)) (vs : list (loc * bcval)) (U K : pt) (cfl tfinal : R) (SIZE : Z) (st : setting) (w0 : list (list R))
    : res (option (R * list full_held)) :=
  do hs <- full_start bc vs SIZE st w0; full_loop fuel order U K cfl SIZE st tfinal 0%R hs.
