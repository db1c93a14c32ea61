(** * Model_petsc: the numbers of entries per row that LinearSystem.assembly announces to PETSc.
    Models manapy/ast/linearsystem.py:260-267. *)
From Coq Require Import Reals.
From Verif Require Import Py Model_part Model_label Model_conn Model_geom Model_interp Model_comm Model_fvm Model_bc Model_linsys Model_domain Model_parallel Model_run Model_run2 Model_poisson.
Open Scope Z_scope.

(** linearsystem.py:260-265, one rank: NNZ_loc = zeros(globalsize); unique, counts = np.unique(row, return_counts=True); NNZ_loc[loctoglob[i]] = counts[i] *)
Definition petsc_nnz_rank (gs : Z) (D : domain) (es : list entry) : res (list Z) :=
  do k <- petsc_counts D es;
  foldM (fun b i => do g <- get (dm_loctoglob D) i; do n <- get k i; set b g n) (range (zlen (dm_center D))) (zeros_like 0 gs).
(** linearsystem.py:267: NNZ = comm.allreduce(NNZ_loc, op=MPI.SUM) *)
Definition petsc_nnz (SIZE : Z) (st : setting) (es : list (list entry)) : res (list Z) :=
  do ns <- mapM (fun r => do D <- get (se_domains st) r; do e <- get es r; petsc_nnz_rank (global_size st) D e) (range SIZE);
  ret (map (fun g => fold_right Z.add 0 (map (fun n => nthZ 0 n g) ns)) (range (global_size st))).
