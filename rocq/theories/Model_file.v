(** * Model_file: the mesh files: what readmesh writes, line by line, and what read_mesh_file reads back.
    A line is either a keyword line or a list of blank-separated numbers.  [str] of an integer / float and
    [int] / [double] of the resulting text are taken to be mutually inverse. *)
From Coq Require Import String Reals.
From Verif Require Import Py Model_part.
Open Scope Z_scope.

Inductive tok := TI (z : Z) | TR (r : R).
Inductive line := LK (k : string) | LT (l : list tok).

(** [line == "k\n"] *)
Definition line_is (k : string) (l : line) : bool :=
  match l with LK k' => String.eqb k' k | LT _ => false end.
(** ["k" in line]: k occurs as a sub-string; the numeric lines contain no letters *)
Definition line_has (k : string) (l : line) : bool :=
  match l with LK k' => match String.index 0 k k' with Some _ => true | None => false end | LT _ => false end.

(** [int64(x)] / [int(x)] and [double(x)] / [float(x)] of one word *)
Definition tok_int (t : tok) : res Z := match t with TI z => ret z | TR _ => Err ValueError end.
Definition tok_float (t : tok) : res R := match t with TI z => ret (IZR z) | TR r => ret r end.
(** [[int(x) for x in line.split()]], [[float(x) for x in line.split()]], [int(line)] *)
Definition line_ints (l : line) : res (list Z) := match l with LT ts => mapM tok_int ts | LK _ => Err ValueError end.
Definition line_floats (l : line) : res (list R) := match l with LT ts => mapM tok_float ts | LK _ => Err ValueError end.
Definition line_int (l : line) : res Z := match l with LT [t] => tok_int t | _ => Err ValueError end.

(** ** The writers *)
Definition ints (l : list Z) : line := LT (map TI l).
Definition section (k k' : string) (body : list line) : list line := LK k :: body ++ [LK k'].
Definition node_line (n : pt * Z) : line := LT [TR (px (fst n)); TR (py (fst n)); TR (pz (fst n)); TI (snd n)].

(** meshpartitioning.py:169-179: the only file of a sequential run *)
Definition write_seq (cells : list (list Z)) (nodes : list pt) (ghost_nodes : list Z) : list line :=
  section "elements" "endelements" (map ints cells) ++
  section "nodes" "endnodes" (map node_line (combine nodes ghost_nodes)).

(** meshpartitioning.py:284-290 (GtoL, first part of mesh0.txt) *)
Definition write_gtol (tc : list Z) : list line := section "GtoL" "endGtoL" (map (fun c => ints [c]) tc).

(** meshpartitioning.py:292-343: rank i's file, section by section *)
Definition write_rank (f : rankfile) : list line :=
  section "elements" "endelements" (map ints (rf_elements f)) ++
  section "nodes" "endnodes" (map node_line (rf_nodes f)) ++
  section "halosint" "endhalosint" (map (fun c => ints [c]) (rf_halosint f)) ++
  section "halosext" "endhalosext" (map ints (rf_halosext f)) ++
  section "centvol" "endcentvol" (map (fun r => LT (map TR r)) (rf_centvol f)) ++
  section "globalcelltolocal" "endglobalcelltolocal" (map (fun c => ints [c]) (rf_loctoglob f)) ++
  section "localnodetoglobal" "endlocalnodetoglobal" (map (fun c => ints [c]) (rf_nodeloctoglob f)) ++
  section "neigh" "endneigh" [ints (rf_neigh f); ints (rf_neighcount f)].

(** mesh<i>.txt of a partition: the files are opened in append mode, GtoL comes first in mesh0.txt *)
Definition write_file (pa : partition) (i : Z) : res (list line) :=
  do f <- get (pa_files pa) i;
  ret ((if i =? 0 then write_gtol (pa_tc pa) else []) ++ write_rank f).

(** meshpartitioning.py:345-353 *)
Definition write_master (pa : partition) : list line := section "nodeparts" "endnodeparts" (map ints (pa_nparts pa)).

(** ** The reader *)
(** [for line in file: ...] on a shared iterator; the body returns the new state and whether it hit [break] *)
Fixpoint for_line {S} (body : S -> line -> res (S * bool)) (file : list line) (s : S) : res (S * list line) :=
  match file with
  | [] => ret (s, [])
  | l :: rest => do (s', stop) <- body s l; if stop : bool then ret (s', rest) else for_line body rest s'
  end.

(** numba_ddm.py:268-275 *)
Definition body_tc (tc : list Z) (l : line) : res (list Z * bool) :=
  if line_is "GtoL" l then ret (tc, false)
  else if line_is "endGtoL" l then ret (tc, false)
  else if line_is "elements" l then ret (tc, true)
  else do v <- line_ints l; do x <- get v 0; ret (tc ++ [x], false).
(** numba_ddm.py:278-286 *)
Definition body_elements (nodeid : list (list Z)) (l : line) : res (list (list Z) * bool) :=
  if line_is "elements" l then ret (nodeid, false)
  else if line_is "endelements" l then ret (nodeid, false)
  else if line_is "nodes" l then ret (nodeid, true)
  else do v <- line_ints l; ret (nodeid ++ [v], false).
(** numba_ddm.py:288-296 *)
Definition body_nodes (vertex : list (list R)) (l : line) : res (list (list R) * bool) :=
  if line_is "nodes" l then ret (vertex, false)
  else if line_is "endnodes" l then ret (vertex, false)
  else if line_is "halosint" l then ret (vertex, true)
  else do v <- line_floats l; ret (vertex ++ [v], false).
(** numba_ddm.py:310-313 *)
Definition body_halosint (h : list Z) (l : line) : res (list Z * bool) :=
  if line_has "endhalosint" l then ret (h, true) else do x <- line_int l; ret (h ++ [x], false).
(** numba_ddm.py:315-321 *)
Definition body_halosext (h : list (list Z)) (l : line) : res (list (list Z) * bool) :=
  if line_has "halosext" l then ret (h, false)
  else if line_has "centvol" l then ret (h, true)
  else do v <- line_ints l; ret (h ++ [v], false).
(** numba_ddm.py:323-328 *)
Definition body_centvol (h : list (list R)) (l : line) : res (list (list R) * bool) :=
  if line_has "centvol" l then ret (h, false)
  else if line_has "globalcelltolocal" l then ret (h, true)
  else do v <- line_floats l; ret (h ++ [v], false).
(** numba_ddm.py:330-339 (the misspelt keyword is in the source) *)
Definition body_l2g (s : dictZ Z * list Z * Z) (l : line) : res (dictZ Z * list Z * Z * bool) :=
  let '(g2l, l2g, cmpt) := s in
  if line_is "globalcelltomocal" l then ret (s, false)
  else if line_is "endglobalcelltolocal" l then ret (s, true)
  else do x <- line_int l; ret (zset g2l x cmpt, l2g ++ [x], cmpt + 1, false).
(** numba_ddm.py:341-349 *)
Definition body_nl2g (h : list Z) (l : line) : res (list Z * bool) :=
  if line_is "localnodetoglobal" l then ret (h, false)
  else if line_is "endlocalnodetoglobal" l then ret (h, true)
  else do x <- line_int l; ret (h ++ [x], false).
(** numba_ddm.py:350-356 *)
Definition body_neigh (h : list (list Z)) (l : line) : res (list (list Z) * bool) :=
  if line_is "neigh" l then ret (h, false)
  else if line_is "endneigh" l then ret (h, true)
  else do v <- line_ints l; ret (h ++ [v], false).
(** numba_ddm.py:358-364 *)
Definition body_nparts (h : list (list Z)) (l : line) : res (list (list Z) * bool) :=
  if line_is "nodeparts" l then ret (h, false)
  else if line_is "endnodeparts" l then ret (h, true)
  else do v <- line_ints l; ret (h ++ [v], false).

(** the eleven results of read_mesh_file, numba_ddm.py:366 *)
Record meshdata := {
  md_tc : list Z; md_nodeid : list (list Z); md_vertex : list (list R);
  md_halosint : list Z; md_halosext : list (list Z); md_centvol : list (list R);
  md_globtoloc : dictZ Z; md_loctoglob : list Z; md_nodeloctoglob : list Z;
  md_neigh : list (list Z); md_nparts : list (list Z) }.

(** numba_ddm.py:255-366 read_mesh_file; [file] and [master] are the contents of mesh<rank>.txt and
    mesh_master.txt (the latter is only opened when size > 1) *)
Definition read_mesh_file (size rank : Z) (file master : list line) : res meshdata :=
  do (tc, file) <- (if (1 <? size) && (rank =? 0) then for_line body_tc file [] else ret ([], file));
  do (nodeid, file) <- for_line body_elements file [];
  do (vertex, file) <- for_line body_nodes file [];
  let tc := if size =? 1 then range (zlen nodeid) else tc in
  if 1 <? size then
    do (halosint, file) <- for_line body_halosint file [];
    do (halosext, file) <- for_line body_halosext file [];
    do (centvol, file) <- for_line body_centvol file [];
    do (g2l, l2g, _, file) <- for_line body_l2g file ([], [], 0);
    do (nl2g, file) <- for_line body_nl2g file [];
    do (neigh, file) <- for_line body_neigh file [];
    do (nparts, _) <- for_line body_nparts master [];
    ret {| md_tc := tc; md_nodeid := nodeid; md_vertex := vertex; md_halosint := halosint; md_halosext := halosext;
           md_centvol := centvol; md_globtoloc := g2l; md_loctoglob := l2g; md_nodeloctoglob := nl2g;
           md_neigh := neigh; md_nparts := nparts |}
  else
    ret {| md_tc := tc; md_nodeid := nodeid; md_vertex := vertex; md_halosint := []; md_halosext := [];
           md_centvol := []; md_globtoloc := []; md_loctoglob := []; md_nodeloctoglob := [];
           md_neigh := []; md_nparts := [] |}.
