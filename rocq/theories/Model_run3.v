(** * Model_run3: the shallow-water program on all the ranks.
    Models ShallowWaterModel (manapy/models/SWModel/core.py:18-158) driven by the time loop of manapy/models/tests/test_sw_2d.py:48-130 on domains of [Model_parallel.setup].
    Saving of results is left out.  Simplifications: the ranks run the parts between two collective calls one after the other; a nan stops the run (an error); floats are reals;
    the variables hu, hv that the constructor makes and the script replaces (test_sw_2d.py:86-87) are left out: they are still updated (core.py:80-82) but nothing reads them. *)
From Coq Require Import Reals String.
From Verif Require Import Py Model_part Model_label Model_conn Model_geom Model_interp Model_comm Model_fvm Model_sw Model_bc Model_domain Model_parallel Model_run Model_run2.
Open Scope Z_scope.

(** five arrays of one length as one list of 5-tuples (see Model_sw) *)
Definition together (h hu hv hc z : list R) : list q5 :=
  map (fun i => {| q_h := nthZ 0%R h i; q_hu := nthZ 0%R hu i; q_hv := nthZ 0%R hv i; q_hc := nthZ 0%R hc i; q_Z := nthZ 0%R z i |}) (range (zlen h)).

(** the model object on all the ranks (core.py:71-78): the five variables, the cell gradients of h and hc, the face gradient of hc *)
Record sw_held := { sh_h : list variable; sh_hu : list variable; sh_hv : list variable; sh_hc : list variable; sh_Z : list variable;
  sh_gh : list gradients; sh_gc : list gradients; sh_face : list (list pt) }.
(** the cell arrays of a rank *)
Definition held_cells (s : sw_held) (r : Z) : res (list q5) :=
  do h <- get (sh_h s) r; do h <- cell_of h; do hu <- get (sh_hu s) r; do hu <- cell_of hu; do hv <- get (sh_hv s) r; do hv <- cell_of hv;
  do hc <- get (sh_hc s) r; do hc <- cell_of hc; do z <- get (sh_Z s) r; do z <- cell_of z; ret (together h hu hv hc z).
(** all the arrays of a rank that the kernels are called with (core.py:90-100, 108-117): gradients of h and hc, limiter of hc *)
Definition held_data (s : sw_held) (r : Z) : res swdata :=
  do h <- get (sh_h s) r; do h <- arrays h; do hu <- get (sh_hu s) r; do hu <- arrays hu; do hv <- get (sh_hv s) r; do hv <- arrays hv;
  do hc <- get (sh_hc s) r; do hc <- arrays hc; do z <- get (sh_Z s) r; do z <- arrays z; do gh <- get (sh_gh s) r; do gc <- get (sh_gc s) r;
  ret {| sw_c := together (w_c h) (w_c hu) (w_c hv) (w_c hc) (w_c z);
         sw_ghost := together (w_ghost h) (w_ghost hu) (w_ghost hv) (w_ghost hc) (w_ghost z);
         sw_halo := together (w_halo h) (w_halo hu) (w_halo hv) (w_halo hc) (w_halo z);
         sw_gradh := gr_cell gh; sw_gradhh := gr_halo gh; sw_gradc := gr_cell gc; sw_gradch := gr_halo gc; sw_psi := gr_psi gc; sw_psih := gr_psih gc |}.
(** var.cell[:] = w on every rank *)
Definition write_each (SIZE : Z) (l : list variable) (ws : list (list R)) : res (list variable) :=
  mapM (fun r => do v <- get l r; do w <- get ws r; write_array v (va_cell v) w) (range SIZE).

(** core.py:129-135 update_time_step *)
Definition sw_time_step (co : swcoef) (cfl : R) (SIZE : Z) (st : setting) (s : sw_held) : res R :=
  do dts <- mapM (fun r => do D <- get (se_domains st) r; do w <- held_cells s r;
                  time_step_SW w cfl (dm_normal D) (dm_mesure D) (dm_volume D) (dm_faceid D) (co_Dx co) (co_Dy co)) (range SIZE);
  match allreduce_min dts with None => Err ValueError | Some dt => ret dt end.
(** core.py:80-82 update_values; [own]: the variables hu, hv of the model are those of the constructor *)
Definition sw_update_values (own : bool) (SIZE : Z) (st : setting) (s : sw_held) : res sw_held :=
  do h <- update_values SIZE st (sh_h s);
  do hu <- (if own then update_values SIZE st (sh_hu s) else ret (sh_hu s));
  do hv <- (if own then update_values SIZE st (sh_hv s) else ret (sh_hv s));
  do hc <- update_values SIZE st (sh_hc s); do z <- update_values SIZE st (sh_Z s);
  ret {| sh_h := h; sh_hu := hu; sh_hv := hv; sh_hc := hc; sh_Z := z; sh_gh := sh_gh s; sh_gc := sh_gc s; sh_face := sh_face s |}.
(** core.py:120-123 update_term_friction *)
Definition sw_friction (co : swcoef) (dt : R) (SIZE : Z) (st : setting) (s : sw_held) : res sw_held :=
  do w1 <- mapM (fun r => do w <- held_cells s r; match all_some (term_friction_SW w g981 (co_Mann co) dt) with None => Err ValueError | Some w1 => ret w1 end) (range SIZE);
  do hu <- write_each SIZE (sh_hu s) (map (map q_hu) w1); do hv <- write_each SIZE (sh_hv s) (map (map q_hv) w1);
  do hu <- update_values SIZE st hu; do hv <- update_values SIZE st hv;
  ret {| sh_h := sh_h s; sh_hu := hu; sh_hv := hv; sh_hc := sh_hc s; sh_Z := sh_Z s; sh_gh := sh_gh s; sh_gc := sh_gc s; sh_face := sh_face s |}.
(** core.py:84-88 *)
Definition sw_gradients (order : Z) (SIZE : Z) (st : setting) (s : sw_held) : res sw_held :=
  if order =? 2 then
    do p <- compute_cell_gradient SIZE st (sh_h s); do q <- compute_cell_gradient SIZE st (sh_hc s);
    ret {| sh_h := fst p; sh_hu := sh_hu s; sh_hv := sh_hv s; sh_hc := fst q; sh_Z := sh_Z s; sh_gh := snd p; sh_gc := snd q; sh_face := sh_face s |}
  else ret s.
(** core.py:103 *)
Definition sw_face_gradient (SIZE : Z) (st : setting) (s : sw_held) : res sw_held :=
  do q <- compute_face_gradient SIZE st (sh_hc s) (sh_face s);
  ret {| sh_h := sh_h s; sh_hu := sh_hu s; sh_hv := sh_hv s; sh_hc := fst q; sh_Z := sh_Z s; sh_gh := sh_gh s; sh_gc := sh_gc s; sh_face := snd q |}.
(** core.py:90-100 on one rank *)
Definition convective_rank_SW (order : Z) (st : setting) (s : sw_held) (r : Z) : res (list (option q5)) :=
  do D <- get (se_domains st) r; do A <- held_data s r; convective_SW order (dom_fv D) (dm_mesure D) (dom_lists D) A (zlen (dm_center D)).
(** core.py:104-105, 107-117, 126-127, 154-158 on one rank: the new cell values *)
Definition new_cells_SW (co : swcoef) (dt : R) (st : setting) (s : sw_held) (rez : list (list (option q5))) (r : Z) : res (list q5) :=
  do D <- get (se_domains st) r; do A <- held_data s r; do g <- get (sh_face s) r; do z <- get rez r;
  do dis <- dissipative (dm_cellid D) (dm_normal D) g (dm_name D) (P3 (co_Dx co) (co_Dy co) 0) (zlen (dm_center D));
  do src <- term_source_SW (dom_fv D) (dom_sw D) A;
  do new <- update_SW (sw_c A) z src dis (term_coriolis_SW (sw_c A) (co_fc co)) (0, 0)%R dt (dm_volume D);
  known new.
(** core.py:137-158 update_solution; the arrays convective, dissipation, source, coriolis exist for the terms given only (see Model_sw.update_solution_SW) *)
Definition sw_update_solution (order : Z) (co : swcoef) (dt : R) (SIZE : Z) (st : setting) (s : sw_held) : res sw_held :=
  if negb (forallb (fun t => has_term t (co_terms co)) ["convective"; "dissipation"; "source"; "coriolis"]%string) then Err AttributeError else
  do s <- sw_friction co dt SIZE st s;
  do s <- sw_gradients order SIZE st s;
  do rez <- mapM (convective_rank_SW order st s) (range SIZE);
  do s <- sw_face_gradient SIZE st s;
  do new <- mapM (new_cells_SW co dt st s rez) (range SIZE);
  do h <- write_each SIZE (sh_h s) (map (map q_h) new); do hu <- write_each SIZE (sh_hu s) (map (map q_hu) new); do hv <- write_each SIZE (sh_hv s) (map (map q_hv) new);
  do hc <- write_each SIZE (sh_hc s) (map (map q_hc) new); do z <- write_each SIZE (sh_Z s) (map (map q_Z) new);
  ret {| sh_h := h; sh_hu := hu; sh_hv := hv; sh_hc := hc; sh_Z := z; sh_gh := sh_gh s; sh_gc := sh_gc s; sh_face := sh_face s |}.

(** test_sw_2d.py:106-119: one turn of the loop; returns the next time step *)
Definition sw_turn (own : bool) (order : Z) (co : swcoef) (cfl dt : R) (SIZE : Z) (st : setting) (s : sw_held) : res (R * sw_held) :=
  do s <- sw_update_values own SIZE st s;
  do s <- sw_update_solution order co dt SIZE st s;
  do dt' <- sw_time_step co cfl SIZE st s;
  do h <- interpolate_celltonode SIZE st (sh_h s);
  ret (dt', {| sh_h := h; sh_hu := sh_hu s; sh_hv := sh_hv s; sh_hc := sh_hc s; sh_Z := sh_Z s; sh_gh := sh_gh s; sh_gc := sh_gc s; sh_face := sh_face s |}).
(** while time < tfinal: time = time + time_step; ...; [None]: not finished after [fuel] turns *)
Fixpoint sw_loop (fuel : nat) (own : bool) (order : Z) (co : swcoef) (cfl : R) (SIZE : Z) (st : setting) (tfinal time dt : R) (s : sw_held) : res (option (R * sw_held)) :=
  if Rlt_dec time tfinal then
    match fuel with
    | O => ret None
    | Datatypes.S fuel => do p <- sw_turn own order co cfl dt SIZE st s; sw_loop fuel own order co cfl SIZE st tfinal (time + dt)%R (fst p) (snd p)
    end
  else ret (Some (time, s)).

(** Variable(domain, ...) on every rank with var.cell[:] = w: with a dictionary and values, or without *)
Definition sw_variable (bc : option (list (loc * bctype) * list (loc * bcval))) (SIZE : Z) (st : setting) (w : list (list R)) : res (list variable) :=
  mapM (fun r => do D <- get (se_domains st) r; do w <- get w r;
                 do v <- new_variable (dom_bc D) (option_map fst bc) (option_map snd bc); write_array v (va_cell v) w) (range SIZE).
(** core.py:71-78; gradients are created with zeros (ast/core.py:129-143) *)
Definition zero_gradients (D : domain) : gradients :=
  {| gr_cell := zeros_like p0 (zlen (dm_center D)); gr_psi := zeros_like 0%R (zlen (dm_center D)); gr_halo := zeros_like p0 (zlen (dm_centerh D)); gr_psih := zeros_like 0%R (zlen (dm_centerh D)) |}.
(** test_sw_2d.py:66-93: the model, its variables hu and hv kept (None) or replaced, any initial values on the cells of each rank *)
Definition sw_start (flow : option ((list (loc * bctype) * list (loc * bcval)) * (list (loc * bctype) * list (loc * bcval)))) (SIZE : Z) (st : setting) (w0 : list (list q5)) : res sw_held :=
  do h <- sw_variable None SIZE st (map (map q_h) w0); do hu <- sw_variable (option_map fst flow) SIZE st (map (map q_hu) w0);
  do hv <- sw_variable (option_map snd flow) SIZE st (map (map q_hv) w0);
  do hc <- sw_variable None SIZE st (map (map q_hc) w0); do z <- sw_variable None SIZE st (map (map q_Z) w0);
  ret {| sh_h := h; sh_hu := hu; sh_hv := hv; sh_hc := hc; sh_Z := z; sh_gh := map zero_gradients (se_domains st); sh_gc := map zero_gradients (se_domains st);
         sh_face := map (fun D => zeros_like p0 (zlen (dm_cellid D))) (se_domains st) |}.
(** the program: the start, the first time step, the loop from time 0 *)
Definition sw_program (fuel : nat) (flow : option ((list (loc * bctype) * list (loc * bcval)) * (list (loc * bctype) * list (loc * bcval)))) (order : Z) (co : swcoef) (cfl tfinal : R)
    (SIZE : Z) (st : setting) (w0 : list (list q5)) : res (option (R * sw_held)) :=
  do s <- sw_start flow SIZE st w0; do dt <- sw_time_step co cfl SIZE st s;
  sw_loop fuel (match flow with None => true | Some _ => false end) order co cfl SIZE st tfinal 0%R dt s.
