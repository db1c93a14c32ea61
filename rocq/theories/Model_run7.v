(** * Model_run7: the loops of the Darcy and streamer programs with their saving.
    Models manapy/models/tests/test_darcy_2d.py:66-161, test_darcy_3d.py:66-167 (without the computation of the turns: Model_run4) and
    manapy/models/tests/test_streamer_2d.py:116-170, test_streamer_2d_bis.py:84-107 (without the computation of the turns: Model_run5), run by all the ranks, with the saves of Model_save.
    Simplifications: as in Model_run6.  Where tfinal <= 0 test_streamer_2d.py fails at the save after the loop (d_tt is not defined); here it saves. *)
From Coq Require Import Reals.
From Verif Require Import Py Model_part Model_label Model_conn Model_geom Model_bc Model_linsys Model_domain Model_comm Model_parallel Model_run Model_run2 Model_poisson Model_run4 Model_run5 Model_save Model_run6.
Open Scope Z_scope.

(** tot = int(tfinal/d_t/50)+1: test_darcy_2d.py:128, test_darcy_3d.py:132, test_streamer_2d.py:132 *)
Definition tot_more (tfinal d : R) : Z := py_int (tfinal / d / 50)%R + 1.
(** tot = int(tfinal/dt/50): test_streamer_2d_bis.py:94 *)
Definition tot_plain (tfinal d : R) : Z := py_int (tfinal / d / 50)%R.

(** test_darcy_2d.py:110-159: ne is saved *)
Definition darcy_saving_program (fuel : nat) (spread : bool) (order : Z) (K : pt) (cfl tfinal : R) (condn condP : option (list (loc * bctype) * list (loc * bcval)))
    (at_node : bool) (ord : Z -> list Z) (SIZE : Z) (st : setting) (sol : solver) (user0 : list (option (list R))) (backend : nat -> list entry -> list (option R) -> list R)
    (n0 p0' : list (list R)) (F : files) : res (option (R * darcy_held * files)) :=
  do s <- darcy_start condn condP SIZE st sol user0 n0 p0';
  do p <- saving_loop fuel (fun x : nat * darcy_held => do q <- darcy_turn spread order K cfl SIZE st sol (snd (fst s)) (snd s) (backend (fst x)) (snd x); ret (fst q, fst q, (Datatypes.S (fst x), snd q)))
            (fun x => dk_ne (snd x)) (tot_more tfinal) false at_node ord SIZE st tfinal 0%R 0%R 1 0 (O, fst (fst s)) (emptied F);
  ret (option_map (fun x => (fst (fst x), snd (snd (fst x)), snd x)) p).

(** [bis = false]: test_streamer_2d.py:116-170, which saves ne at the nodes or P on the cells, and once more after the loop; [bis = true]: test_streamer_2d_bis.py:84-107, which saves ne at the nodes *)
Definition streamer_saving_program (bis : bool) (fuel : nat) (order : Z) (cfl tfinal : R) (condn condP : option (list (loc * bctype) * list (loc * bcval)))
    (at_node : bool) (ord : Z -> list Z) (SIZE : Z) (st : setting) (sol : solver) (backend : nat -> list entry -> list (option R) -> list R)
    (n0 i0 p0' : list (list R)) (F : files) : res (option (R * streamer_held * files)) :=
  do s <- streamer_start condn condP SIZE st sol n0 i0 p0';
  let at_node := bis || at_node in
  do p <- saving_loop fuel (fun x : nat * streamer_held => do q <- streamer_turn (negb bis) order cfl (if bis then saves_bis tfinal (fst x) else saves_script (fst x)) SIZE st sol (snd (fst s)) (snd s) (backend (fst x)) (snd x);
                                                       ret (fst q, fst q, (Datatypes.S (fst x), snd q)))
            (fun x => if at_node then sk_ne (snd x) else sk_P (snd x)) (if bis then tot_plain tfinal else tot_more tfinal) (negb bis) at_node ord SIZE st tfinal 0%R 0%R 1 0 (O, fst (fst s)) (emptied F);
  ret (option_map (fun x => (fst (fst x), snd (snd (fst x)), snd x)) p).
