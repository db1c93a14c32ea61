(** * Model_run6: the loops of the test programs with their saving.
    Models manapy/models/tests/test_sw_2d.py:88-130; test_transport_2d_periodic.py:69-72, 103-150 (and test_transport_3d_periodic.py, test_darcy_2d.py:110-159, test_darcy_3d.py:
    112-163, which save in the same way).  What a turn computes is modelled elsewhere (sw_turn, full_turn).
    Floats are reals.  Python's int truncates; x / 0 does not occur (time steps are positive).  The order in which the ranks write the files of save number m is [ord m], arbitrary. *)
From Coq Require Import Reals.
From Verif Require Import Py Model_part Model_conn Model_geom Model_bc Model_domain Model_comm Model_parallel Model_run Model_run2 Model_sw Model_run3 Model_save.
Open Scope Z_scope.

Definition py_int (x : R) : Z := if Rle_dec 0 x then Int_part x else - Int_part (- x).
(** value=var.node or value=var.cell on every rank *)
Definition value_of (at_node : bool) (l : list variable) : res (list (option (list R))) :=
  mapM (fun v => do w <- (if at_node then get (va_heap v) r_node else cell_of v); ret (Some w)) l.
(** save_on_node or save_on_cell of this value: test_sw_2d.py:119-122, 127-130 *)
Definition save_variable (at_node : bool) (order : list Z) (SIZE : Z) (st : setting) (dt time : R) (niter miter : Z) (l : list variable) (F : files) : res files :=
  do vals <- value_of at_node l; do p <- save (negb at_node) order SIZE st dt time niter miter vals F; ret (fst p).
(** niter == 1 or niter%tot == 0 (test_sw_2d.py:118) *)
Definition due (tot niter : Z) : res bool := if niter =? 1 then ret true else if tot =? 0 then Err ZeroDivision else ret (niter mod tot =? 0).

(** the loop: [turn] makes one turn and gives how much the time advances, the time step that is handed to save, and what the program then holds; [tot] may depend on the
    former; [final]: the results are saved once more after the loop.  [None]: not finished after [fuel] turns *)
Fixpoint saving_loop {S} (fuel : nat) (turn : S -> res (R * R * S)) (var : S -> list variable) (tot : R -> Z) (final : bool) (at_node : bool) (ord : Z -> list Z) (SIZE : Z) (st : setting)
    (tfinal time dt : R) (niter miter : Z) (s : S) (F : files) : res (option (R * S * files)) :=
  if Rlt_dec time tfinal then
    match fuel with
    | O => ret None
    | Datatypes.S fuel =>
        do p <- turn s; let d := fst (fst p) in let dt := snd (fst p) in let s := snd p in let time := (time + d)%R in
        do b <- due (tot d) niter;
        do F <- (if b then save_variable at_node (ord miter) SIZE st dt time niter miter (var s) F else ret F);
        saving_loop fuel turn var tot final at_node ord SIZE st tfinal time dt (niter + 1) (if b then miter + 1 else miter) s F
    end
  else do F <- (if final then save_variable at_node (ord miter) SIZE st dt time niter miter (var s) F else ret F); ret (Some (time, s, F)).

(** test_sw_2d.py:66-130: what the program holds is the state and the next time step; tot is computed once; the reading of the mesh has emptied the directory *)
Definition sw_saving_program (fuel : nat) (flow : option ((list (loc * bctype) * list (loc * bcval)) * (list (loc * bctype) * list (loc * bcval)))) (order : Z) (co : swcoef) (cfl tfinal : R)
    (at_node : bool) (ord : Z -> list Z) (SIZE : Z) (st : setting) (w0 : list (list q5)) (F : files) : res (option (R * sw_held * files)) :=
  do s <- sw_start flow SIZE st w0; do dt <- sw_time_step co cfl SIZE st s;
  let tot := py_int ((tfinal - 0) / dt / 50)%R in
  do p <- saving_loop fuel (fun x : R * sw_held => do q <- sw_turn (match flow with None => true | Some _ => false end) order co cfl (fst x) SIZE st (snd x); ret (fst x, fst q, q))
            (fun x => sh_h (snd x)) (fun _ => tot) true at_node ord SIZE st tfinal 0%R dt 1 0 (dt, s) (emptied F);
  ret (option_map (fun x => (fst (fst x), snd (snd (fst x)), snd x)) p).

(** test_transport_2d_periodic.py:103-150 without periodic sides: d_t is computed in every turn, and tot from it *)
Definition transport_saving_program (fuel : nat) (order : Z) (bc : list (loc * bctype)) (vs : list (loc * bcval)) (U K : pt) (cfl tfinal : R)
    (at_node : bool) (ord : Z -> list Z) (SIZE : Z) (st : setting) (w0 : list (list R)) (F : files) : res (option (R * list full_held * files)) :=
  do hs <- full_start bc vs SIZE st w0;
  saving_loop fuel (fun hs => do q <- full_turn order U K cfl SIZE st hs; ret (fst q, fst q, snd q)) (map fh_ne) (fun d => py_int (tfinal / d / 50)%R + 1) false at_node ord SIZE st
    tfinal 0%R 0%R 1 0 hs (emptied F).
