(** * Model_haloghost: the exchange of the ghosts of halo nodes, all ranks jointly.
    Models manapy/comms/communication.py:75-241 (update_haloghost_info_2d) and 243-419 (update_haloghost_info_3d); the two functions differ in the
    number of coordinates only.
    MPI collectives are modelled by their specification on the tuple of all ranks' buffers.  Simplifications: a row of ghostcenter and the
    row of ghostfaceinfo appended beside it are one record [hgrow] (they are sent with the same counts and displacements, l.144-187); the
    dictionary with ranks as keys, sorted at l.113-114, is an array indexed by rank (an absent key is an empty list); the padding of l.189-216
    is [pad_rows] (Model_interp) and comes after the numbering of l.224-232, which skips it. *)
From Coq Require Import Reals.
From Verif Require Import Py Model_part Model_label Model_conn Model_halo Model_interp Model_comm.
Open Scope Z_scope.

(** what a rank brings: halonodes, nodes._ghostcenter / _ghostfaceinfo, nodes._loctoglob, cells._loctoglob, halos._neigh[0], nodes._halonid, halos._halosext *)
Record hgrank := { hk_nodes : list Z; hk_ghost : list (list nodeghost); hk_node : list Z; hk_cell : list Z; hk_neigh : list Z; hk_nodehalo : list (list Z); hk_ext : list (list Z) }.
(** a row of the messages: [global node, ghost point, global cell, name, face] and [face centre, face normal] *)
Record hgrow := { hr_node : Z; hr_pt : pt; hr_cell : Z; hr_name : Z; hr_face : Z; hr_fcenter : pt; hr_fnormal : pt }.

(** communication.py:97-109 / 266-281 *)
Definition row_of (H : hgrank) (i : Z) (e : nodeghost) : res hgrow :=
  do g <- get (hk_node H) i; do c <- get (hk_cell H) (ng_cell e);
  ret {| hr_node := g; hr_pt := ng_pt e; hr_cell := c; hr_name := ng_name e; hr_face := ng_face e; hr_fcenter := ng_fcenter e; hr_fnormal := ng_fnormal e |}.
(** communication.py:93-111 / 262-282: the rows for every rank; [nparts]: nodes._nparts *)
Definition collect (SIZE RANK : Z) (nparts : list (list Z)) (H : hgrank) : res (list (list hgrow)) :=
  foldM (fun b i =>
    do es <- get (hk_ghost H) i;
    foldM (fun b e =>
      do g <- get (hk_node H) i; do ps <- get nparts g;
      foldM (fun b k => if k =? RANK then ret b else do row <- row_of H i e; append_at b k row) ps b) es b)
    (hk_nodes H) (zeros_like [] SIZE).
(** communication.py:117-118 / 288-289 *)
Definition send_counts (SIZE : Z) (neigh : list Z) (b : list (list hgrow)) : res (list Z) :=
  foldM (fun sc p => do rows <- get b p; set sc p (zlen rows)) neigh (zeros_like 0 SIZE).
(** communication.py:120-121 / 291-292 *)
Definition displacements (SIZE : Z) (sc : list Z) : res (list Z) :=
  foldM (fun d i => do a <- get d (i - 1); do n <- get sc (i - 1); set d i (a + n)) (range2 1 SIZE) (zeros_like 0 SIZE).
(** what rank s has prepared: the send buffer (l.132-137 / 303-308), the counts and the displacements *)
Record hgsend := { hs_buf : list hgrow; hs_count : list Z; hs_depl : list Z }.
Definition prepare_send (SIZE RANK : Z) (nparts : list (list Z)) (H : hgrank) : res hgsend :=
  do b <- collect SIZE RANK nparts H;
  do sc <- send_counts SIZE (hk_neigh H) b;
  do sd <- displacements SIZE sc;
  ret {| hs_buf := concat b; hs_count := sc; hs_depl := sd |}.
(** Alltoallv as seen by rank r (l.145-148 / 316-319): count rows from position displacement of every rank's buffer, in the order of the ranks
    (the receive displacements are the prefix sums of the receive counts); reading past the end of a buffer is an error *)
Definition alltoallv (SIZE : Z) (bufs : list hgsend) (r : Z) : res (list hgrow) :=
  do pieces <- mapM (fun s => do x <- get bufs s; do n <- get (hs_count x) r; do d <- get (hs_depl x) r;
                              if zlen (hs_buf x) <? d + n then Err ValueError else ret (firstn (Z.to_nat n) (skipn (Z.to_nat d) (hs_buf x)))) (range SIZE);
  ret (concat pieces).
(** communication.py:151-155, 183-185 / 322-326, 353-356: recv.setdefault(node, []).append(row) *)
Definition group (rows : list hgrow) : dictZ (list hgrow) :=
  fold_left (fun d x => zset d (hr_node x) (match zget_opt d (hr_node x) with Some l => l ++ [x] | None => [x] end)) rows [].
(** communication.py:156-158, 186-187 / 327-329, 357-359 *)
Definition receive (H : hgrank) (rows : list hgrow) : res (list (list hgrow)) :=
  foldM (fun t i => do g <- get (hk_node H) i;
                    match zget_opt (group rows) g with Some l => extend_at t i l | None => ret t end) (hk_nodes H) (zeros_like [] (zlen (hk_ghost H))).
(** communication.py:219-223 / 397-400 haloexttoind *)
Definition halo_index (H : hgrank) : res (dictZ Z) :=
  foldM (fun d i => do row <- get (hk_nodehalo H) i;
                    count_loop row (fun d h => do x <- get2 (hk_ext H) h 0; ret (zset d x h)) d) (hk_nodes H) [].
(** communication.py:225-232 / 401-407: one row of nodes._haloghostcenter; [cmpt] is the counter *)
Definition number_row (ind : dictZ Z) (rows : list hgrow) (cmpt : Z) : res (list gentry * Z) :=
  foldM (fun '(out, cmpt) x =>
    if hr_face x =? -1 then ret (out ++ [{| g_pt := hr_pt x; g_cell := hr_cell x; g_name := hr_name x; g_last := hr_face x |}], cmpt)
    else do h <- zget ind (hr_cell x); ret (out ++ [{| g_pt := hr_pt x; g_cell := h; g_name := hr_name x; g_last := cmpt |}], cmpt + 1)) rows ([], cmpt).
Definition number (H : hgrank) (ind : dictZ Z) (t : list (list hgrow)) : res (list (list gentry) * Z) :=
  foldM (fun '(out, cmpt) i => do rows <- get t i; do (row, cmpt) <- number_row ind rows cmpt; do out <- set out i row; ret (out, cmpt))
    (hk_nodes H) (zeros_like [] (zlen (hk_ghost H)), 0).
(** what a rank gets: nodes._haloghostcenter and the face centres of nodes._haloghostfaceinfo, before the padding, and halos._sizehaloghost *)
Record hgout := { ho_ghost : list (list gentry); ho_info : list (list pt); ho_size : Z }.
Definition finish (H : hgrank) (rows : list hgrow) : res hgout :=
  do t <- receive H rows; do ind <- halo_index H; do (out, cmpt) <- number H ind t;
  ret {| ho_ghost := out; ho_info := map (map hr_fcenter) t; ho_size := cmpt |}.
(** update_haloghost_info on all the ranks *)
Definition exchange_ghosts (SIZE : Z) (nparts : list (list Z)) (Hs : list hgrank) : res (list hgout) :=
  if 1 <? SIZE then
    do bufs <- mapM (fun s => do H <- get Hs s; prepare_send SIZE s nparts H) (range SIZE);
    mapM (fun r => do H <- get Hs r; do rows <- alltoallv SIZE bufs r; finish H rows) (range SIZE)
  else mapM (fun r => do H <- get Hs r; finish H []) (range SIZE).
