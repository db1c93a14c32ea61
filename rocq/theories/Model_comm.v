(** * Model_comm: halo exchange and solution scatter, all ranks jointly.
    Models manapy/comms/communication.py:17-72, manapy/ast/core.py:420-424 (update_halo_value),
    manapy/ast/pyccel_functions.py:3-7 (convert_solution) and manapy/ast/linearsystem.py:376-386, 399-420 (solve).
    MPI collectives are modelled by their specification on the tuple of all ranks' buffers
    (COMM.alltoall, Neighbor_alltoallv on a distributed graph whose in- and out-neighbours are the neigh list,
    gather, Scatterv).  Values are of an arbitrary type [V] (float64 in the code). *)
From Verif Require Import Py Model_part.

(** numba_ddm.py:330-339: reading section globalcelltolocal builds the dictionary global -> local *)
Definition globtoloc (l2g : list Z) : dictZ Z :=
  snd (fold_left (fun '(cmpt, d) c => (cmpt + 1, zset d c cmpt)) l2g (0, [])).

(** communication.py:40, 45-46: scount = zeros(SIZE); scount[neigh[0][i]] = neigh[1][i] *)
Definition scount_full (SIZE : Z) (neigh cnt : list Z) : res (list Z) :=
  foldM (fun sc i => do p <- get neigh i; do n <- get cnt i; set sc p n)
        (range (zlen neigh)) (map (fun _ => 0) (range SIZE)).

(** COMM.alltoall(scount): entry s of rank r's result is entry r of rank s's argument (communication.py:48) *)
Definition alltoall (SIZE : Z) (scounts : list (list Z)) (r : Z) : res (list Z) :=
  mapM (fun s => get2 scounts s r) (range SIZE).

Record rankcomm := { rc_neigh : list Z; rc_scount : list Z; rc_rcount : list Z; rc_indsend : list Z; rc_taille : Z }.

(** communication.py:38-72 prepare_comm with SIZE > 1, for rank r, given every rank's scount *)
Definition prepare_comm_rank (SIZE : Z) (scounts : list (list Z)) (f : rankfile) (r : Z) : res rankcomm :=
  do sc <- get scounts r;
  do rc <- alltoall SIZE scounts r;
  let taille := fold_left Z.add rc 0 in
  do ind <- mapM (fun c => zget (globtoloc (rf_loctoglob f)) c) (rf_halosint f);
  ret {| rc_neigh := rf_neigh f;
         rc_scount := filter (fun n => 0 <? n) sc;
         rc_rcount := filter (fun n => 0 <? n) rc;
         rc_indsend := ind; rc_taille := taille |}.

(** prepare_comm on all ranks *)
Definition prepare_comm (SIZE : Z) (files : list rankfile) : res (list rankcomm) :=
  do scounts <- mapM (fun f => scount_full SIZE (rf_neigh f) (rf_neighcount f)) files;
  mapM (fun r => do f <- get files r; prepare_comm_rank SIZE scounts f r) (range SIZE).

(** communication.py:17-19 define_halosend *)
Definition define_halosend {V} (w_c : list V) (indsend : list Z) : res (list V) := mapM (get w_c) indsend.

(** the message rank s sends to its out-neighbour [dst]: consecutive pieces of the send buffer, the k-th piece
    (scount[k] items) going to the k-th neighbour.  [None]: not an out-neighbour. *)
Fixpoint message {V} (neigh scount : list Z) (buf : list V) (dst : Z) : option (list V) :=
  match neigh, scount with
  | p :: neigh', n :: scount' =>
      if p =? dst then Some (firstn (Z.to_nat n) buf)
      else message neigh' scount' (skipn (Z.to_nat n) buf) dst
  | _, _ => None
  end.

(** Neighbor_alltoallv as seen by the receiver: piece k comes from the k-th neighbour and must have rcount[k] items
    (otherwise MPI fails; modelled as an error value). *)
Fixpoint recv_pieces {V} (comms : list rankcomm) (bufs : list (list V)) (me : Z) (neigh rcount : list Z) : res (list V) :=
  match neigh, rcount with
  | [], [] => ret []
  | s :: neigh', n :: rcount' =>
      do c <- get comms s; do b <- get bufs s;
      match message (rc_neigh c) (rc_scount c) b me with
      | Some m => if zlen m =? n then (do rest <- recv_pieces comms bufs me neigh' rcount'; ret (m ++ rest)) else Err ValueError
      | None => Err ValueError
      end
  | _, _ => Err ValueError
  end.

(** core.py:420-424 update_halo_value on every rank: the new [halo] array of each rank *)
Definition update_halo_value {V} (SIZE : Z) (comms : list rankcomm) (cell : list (list V)) : res (list (list V)) :=
  do bufs <- mapM (fun r => do c <- get comms r; do w <- get cell r; define_halosend w (rc_indsend c)) (range SIZE);
  mapM (fun r => do c <- get comms r; recv_pieces comms bufs r (rc_neigh c) (rc_rcount c)) (range SIZE).

(** pyccel_functions.py:4-7 convert_solution *)
Definition convert_solution {V} (x1 x1converted : list V) (tc : list Z) (b0Size : Z) : res (list V) :=
  foldM (fun xc i => do t <- get tc i; do v <- get x1 t; set xc i v) (range b0Size) x1converted.

(** Scatterv from the root with consecutive counts: rank r gets the r-th piece (linearsystem.py:386, 420) *)
Fixpoint scatterv {V} (counts : list Z) (buf : list V) : list (list V) :=
  match counts with
  | [] => []
  | n :: t => firstn (Z.to_nat n) buf :: scatterv t (skipn (Z.to_nat n) buf)
  end.

(** linearsystem.py:376-386 (mumps) / 405-420 (petsc): [x] is the global solution on rank 0, [zero] the buffer
    x1converted; sendcounts1 = gather(localsize); result: var.cell of each rank *)
Definition solve_scatter {V} (x zero : list V) (tc : list Z) (localsizes : list Z) (globalsize : Z) : res (list (list V)) :=
  do xc <- convert_solution x zero tc globalsize;
  ret (scatterv localsizes xc).
