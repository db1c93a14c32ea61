(** * Model_per2: the transport program on a periodic mesh, with its saves.
    Models manapy/models/tests/test_transport_2d_periodic.py:87-150 with saving_at_node = 0, first order and Dxx = Dyy = 0 (as in C90; the turns: Model_run), run by all the ranks,
    with the saves of Model_save.  d_t is computed in every turn, and tot from it; nothing is saved after the loop; the reading of the mesh has emptied the directory.
    Simplifications: as in Model_run and Model_run6. *)
From Coq Require Import Reals.
From Verif Require Import Py Model_part Model_label Model_conn Model_geom Model_bc Model_domain Model_comm Model_parallel Model_run Model_run2 Model_save Model_run6.
Open Scope Z_scope.

(** test_transport_2d_periodic.py:103-150 *)
Definition periodic_saving_program (fuel : nat) (bc : list (loc * bctype)) (vs : list (loc * bcval)) (U : pt) (cfl tfinal : R) (ord : Z -> list Z) (SIZE : Z) (st : setting) (w0 : list (list R)) (F : files)
    : res (option (R * list held_by * files)) :=
  do hs <- start bc vs SIZE st w0;
  saving_loop fuel (fun hs => do q <- turn_of_loop U cfl SIZE st hs; ret (fst q, fst q, snd q)) (map hb_ne) (fun d => py_int (tfinal / d / 50)%R + 1) false false ord SIZE st
    tfinal 0%R 0%R 1 0 hs (emptied F).
