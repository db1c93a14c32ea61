(** * Model_bc: boundary conditions of a variable.
    Models manapy/ast/core.py:30-101 (Boundary), 106-341 (Variable.__init__, the boundary part), 357-412 (operators), 489-493
    (update_ghost_value), manapy/ddm/domain.py:458-509 (through [where_eq]) and 544-576 (domain._BCs), and
    manapy/ast/pyccel_functions.py:9-118.
    Arrays live in a heap so that two names can denote one array; floats are reals. *)
From Verif Require Import Py Model_part Model_label Model_conn Model_geom Model_interp.
Open Scope Z_scope.

(** the keys of the BC dictionaries and the names of the boundary types; [LOther], [BOther]: any other string *)
Inductive loc := LIn | LOut | LBottom | LUpper | LFront | LBack | LOther.
Inductive bctype := BNeumann | BDirichlet | BPeriodic | BSlip | BNonslip | BOther.
Definition loc_eqb (a b : loc) : bool :=
  match a, b with LIn, LIn | LOut, LOut | LBottom, LBottom | LUpper, LUpper | LFront, LFront | LBack, LBack | LOther, LOther => true | _, _ => false end.
Definition lookup {V} (d : list (loc * V)) (k : loc) : option V := match find (fun p => loc_eqb (fst p) k) d with Some p => Some (snd p) | None => None end.
(** a prescribed value: a Python function of the position, an int or float, anything else (e.g. numpy.int64), core.py:236, 251 *)
Inductive bcval := VFun (f : R -> R -> R -> R) | VNum (x : R) | VOther.

(** what Variable reads of its domain: dim, nbcells, nbnodes, nbhalos, halos.sizehaloghost, faces.name/center/cellid, nodes.oldname/vertex/
    haloghostcenter/haloghostfaceinfo (face centres), halonodes *)
Record bcdom := { bd_dim : Z; bd_nbcells : Z; bd_nbnodes : Z; bd_nbhalos : Z; bd_sizehg : Z; bd_name : list Z; bd_fcenter : list pt; bd_cellid : list (list Z);
  bd_oldname : list Z; bd_vertex : list pt; bd_hg : list (list gentry); bd_hginfo : list (list pt); bd_halonodes : list Z }.

(** the keys of _BCs in order, core.py:157, 165 *)
Definition locs (dim : Z) : list loc := if dim =? 3 then [LIn; LOut; LBottom; LUpper; LFront; LBack] else [LIn; LOut; LBottom; LUpper].
(** domain.py:544-576: (is it periodic, type index); KeyError for an unknown key *)
Definition domain_bc (D : bcdom) (l : loc) : res (bool * Z) :=
  let per v := negb (zlen (where_eq (bd_name D) v) =? 0) in
  match l with
  | LIn => ret (if per 11 then (true, 11) else (false, 1)) | LOut => ret (if per 11 then (true, 22) else (false, 2))
  | LUpper => ret (if per 33 then (true, 33) else (false, 3)) | LBottom => ret (if per 33 then (true, 44) else (false, 4))
  | LFront => if bd_dim D =? 3 then ret (if per 55 then (true, 55) else (false, 5)) else Err KeyError
  | LBack => if bd_dim D =? 3 then ret (if per 55 then (true, 66) else (false, 6)) else Err KeyError
  | LOther => Err KeyError
  end.
(** core.py:46-69 with domain.py:459-462, 493-494: the faces of a boundary *)
Definition loc_label (l : loc) : Z := match l with LIn => 1 | LOut => 2 | LUpper => 3 | LBottom => 4 | LFront => 5 | LBack => 6 | LOther => 0 end.
Definition bc_faces (D : bcdom) (l : loc) : list Z := where_eq (bd_name D) (loc_label l).

(** the heap: references are positions *)
Definition heap := list (list R).
Definition r_cell := 0. Definition r_node := 1. Definition r_halo := 2. Definition r_ghost := 3. Definition r_haloghost := 4.
Definition r_vface := 5. Definition r_vnode := 6. Definition r_vhalo := 7. Definition r_empty := 8.
Definition hset (h : heap) (r i : Z) (v : R) : res heap := do a <- get h r; do a <- set a i v; set h r a.

Record boundary := { b_type : bctype; b_loc : loc; b_index : Z; b_vface : Z; b_vnode : Z; b_vhalo : Z }.
(** core.py:32-85 Boundary(...): the slip branch reads an attribute that does not exist (l.80) *)
Definition new_boundary (t : bctype) (l : loc) (index : Z) : res boundary :=
  match t with BSlip => Err AttributeError
  | _ => ret {| b_type := t; b_loc := l; b_index := index; b_vface := r_cell; b_vnode := r_cell; b_vhalo := r_halo |} end.
Definition with_values (b : boundary) (vf vn vh : Z) : boundary :=
  {| b_type := b_type b; b_loc := b_loc b; b_index := b_index b; b_vface := vf; b_vnode := vn; b_vhalo := vh |}.

(** state of the loop of __init__: the heap, what the names valueface, valuenode, valuehalo denote, BCs, dirichletfaces, neumannfaces,
    BCdirichlet, BCneumann *)
Record vstate := { vs_heap : heap; vs_vf : Z; vs_vn : Z; vs_vh : Z; vs_bcs : list (loc * boundary); vs_dir : list Z; vs_neu : list Z;
  vs_bcd : list Z; vs_bcn : list Z }.
(** core.py:123-127, 146, 178-187 *)
Definition init_state (D : bcdom) : vstate :=
  let nf := zlen (bd_name D) in
  {| vs_heap := [zeros_like 0%R (bd_nbcells D); zeros_like 0%R (bd_nbnodes D); zeros_like 0%R (bd_nbhalos D); zeros_like 0%R nf; zeros_like 0%R (bd_sizehg D);
                 zeros_like 0%R nf; zeros_like 0%R (bd_nbnodes D); zeros_like 0%R (bd_sizehg D); []];
     vs_vf := r_vface; vs_vn := r_vnode; vs_vh := r_vhalo; vs_bcs := []; vs_dir := []; vs_neu := []; vs_bcd := []; vs_bcn := [] |}.
(** [self.BCs[loc] = b] (loc is one of the keys) *)
Definition put (d : list (loc * boundary)) (l : loc) (b : boundary) : list (loc * boundary) := (l, b) :: d.

(** core.py:236-261: writing the prescribed values through the names valueface, valuenode, valuehalo *)
Definition eval_val (v : bcval) (x : pt) : option R := match v with VFun f => Some (f (px x) (py x) (pz x)) | VNum y => Some y | VOther => None end.
Definition write_halo (D : bcdom) (vh : Z) (v : bcval) (i : Z) (h : heap) (j : Z) : res heap :=
  do row <- get (bd_hg D) i; do e <- get row j;
  if g_last e =? -1 then ret h
  else do c <- (match v with VFun _ => get2 (bd_hginfo D) i j | _ => ret p0 end);
       match eval_val v c with Some x => hset h vh (g_last e) x | None => ret h end.
Definition write_node (D : bcdom) (vn vh : Z) (v : bcval) (h : heap) (i : Z) : res heap :=
  do x <- get (bd_vertex D) i;
  do h <- (match eval_val v x with Some y => hset h vn i y | None => ret h end);
  do row <- get (bd_hg D) i;
  foldM (write_halo D vh v i) (range (zlen row)) h.
Definition write_values (D : bcdom) (l : loc) (index : Z) (v : bcval) (vf vn vh : Z) (h : heap) : res heap :=
  match v with
  | VOther => ret h
  | _ =>
    do h <- foldM (fun h i => do x <- get (bd_fcenter D) i; match eval_val v x with Some y => hset h vf i y | None => ret h end) (bc_faces D l) h;
    foldM (write_node D vn vh v) (where_eq (bd_oldname D) index) h
  end.

(** core.py:215-320, one entry (loc, bct) of the BC dictionary *)
Definition bc_entry (D : bcdom) (values : option (list (loc * bcval))) (s : vstate) (entry : loc * bctype) : res vstate :=
  let '(l, t) := entry in
  do pi <- domain_bc D l;
  let '(periodic, index) := pi in
  if periodic && match t with BPeriodic => false | _ => true end then Err ValueError
  else if negb periodic && match t with BPeriodic => true | _ => false end then Err ValueError
  else match t with
  | BDirichlet =>
    do b <- new_boundary t l index;
    match values with
    | None => Err AttributeError
    | Some vs =>
      match lookup vs l with
      | None => Err ValueError
      | Some v =>
        do h <- write_values D l index v (vs_vf s) (vs_vn s) (vs_vh s) (vs_heap s);
        ret {| vs_heap := h; vs_vf := vs_vf s; vs_vn := vs_vn s; vs_vh := vs_vh s; vs_bcs := put (vs_bcs s) l (with_values b (vs_vf s) (vs_vn s) (vs_vh s));
               vs_dir := vs_dir s ++ bc_faces D l; vs_neu := vs_neu s; vs_bcd := vs_bcd s ++ [index]; vs_bcn := vs_bcn s |}
      end
    end
  | BPeriodic =>
    do b <- new_boundary t l index;
    ret {| vs_heap := vs_heap s; vs_vf := vs_vf s; vs_vn := vs_vn s; vs_vh := vs_vh s; vs_bcs := put (vs_bcs s) l (with_values b r_empty r_empty r_empty);
           vs_dir := vs_dir s; vs_neu := vs_neu s; vs_bcd := vs_bcd s; vs_bcn := vs_bcn s |}
  | BNeumann | BSlip | BNonslip =>
    do b <- new_boundary t l index;
    ret {| vs_heap := vs_heap s; vs_vf := r_cell; vs_vn := r_node; vs_vh := r_halo; vs_bcs := put (vs_bcs s) l (with_values b r_cell r_node r_halo);
           vs_dir := vs_dir s; vs_neu := vs_neu s ++ bc_faces D l; vs_bcd := vs_bcd s; vs_bcn := vs_bcn s ++ [index] |}
  | BOther => ret s
  end.
(** core.py:189-212: no BC dictionary *)
Definition bc_default (D : bcdom) (s : vstate) (l : loc) : res vstate :=
  do pi <- domain_bc D l;
  let '(periodic, index) := pi in
  if periodic : bool then
    do b <- new_boundary BPeriodic l index;
    ret {| vs_heap := vs_heap s; vs_vf := vs_vf s; vs_vn := vs_vn s; vs_vh := vs_vh s; vs_bcs := put (vs_bcs s) l (with_values b (vs_vf s) (vs_vn s) (vs_vh s));
           vs_dir := vs_dir s; vs_neu := vs_neu s; vs_bcd := vs_bcd s; vs_bcn := vs_bcn s |}
  else
    do b <- new_boundary BNeumann l index;
    ret {| vs_heap := vs_heap s; vs_vf := r_cell; vs_vn := r_node; vs_vh := r_halo; vs_bcs := put (vs_bcs s) l (with_values b r_cell r_node r_halo);
           vs_dir := vs_dir s; vs_neu := vs_neu s ++ bc_faces D l; vs_bcd := vs_bcd s; vs_bcn := vs_bcn s ++ [index] |}.

(** a Variable: its heap, the array its attribute [cell] denotes, the boundaries (an absent key is None), the face lists *)
Record variable := { va_heap : heap; va_cell : Z; va_bcs : list (loc * boundary); va_dirichletfaces : list Z; va_neumannfaces : list Z;
  va_BCdirichlet : list Z; va_BCneumann : list Z }.
(** core.py:106-341 Variable(domain, BC=BC, values=values) *)
Definition new_variable (D : bcdom) (BC : option (list (loc * bctype))) (values : option (list (loc * bcval))) : res variable :=
  do s <- match BC with
          | None => foldM (bc_default D) (locs (bd_dim D)) (init_state D)
          | Some bc => foldM (bc_entry D values) bc (init_state D)
          end;
  ret {| va_heap := vs_heap s; va_cell := r_cell; va_bcs := vs_bcs s; va_dirichletfaces := np_sort (vs_dir s); va_neumannfaces := np_sort (vs_neu s);
         va_BCdirichlet := vs_bcd s; va_BCneumann := vs_bcn s |}.

(** pyccel_functions.py:42-60 *)
Definition ghost_value_nonslip (w_c w_ghost : list R) (cellid : list (list Z)) (faces : list Z) : res (list R) :=
  foldM (fun g i => do c <- get2 cellid i 0; do w <- get w_c c; set g i (-1 * w)%R) faces w_ghost.
Definition ghost_value_neumann (w_c w_ghost : list R) (cellid : list (list Z)) (faces : list Z) : res (list R) :=
  foldM (fun g i => do c <- get2 cellid i 0; do w <- get w_c c; set g i w) faces w_ghost.
Definition ghost_value_dirichlet (value w_ghost : list R) (cellid : list (list Z)) (faces : list Z) : res (list R) :=
  foldM (fun g i => do v <- get value i; set g i v) faces w_ghost.
(** pyccel_functions.py:24-39; [None]: division by zero *)
Definition ghost_value_slip (u_c v_c w_ghost : list R) (cellid : list (list Z)) (faces : list Z) (normal : list pt) (mesure : list R) : res (list (option R)) :=
  foldM (fun g i => do c <- get2 cellid i 0; do u <- get u_c c; do v <- get v_c c; do n <- get normal i; do m <- get mesure i;
     set g i (match odiv (px n) m, odiv (py n) m with
              | Some s0, Some s1 => Some (u * (u * (s1 * s1 - s0 * s0) - 2 * v * s0 * s1))%R
              | _, _ => None end)) faces (map Some w_ghost).

(** pyccel_functions.py:63-93: the entries of the halo nodes with the right name *)
Definition haloghost_loop (f : gentry -> res R) (hg : list (list gentry)) (BCindex : Z) (halonodes : list Z) (w_haloghost : list R) : res (list R) :=
  foldM (fun w i => do row <- get hg i;
    foldM (fun w j => do e <- get row j;
       if negb (g_last e =? -1) && (g_name e =? BCindex) then do v <- f e; set w (g_last e) v else ret w) (range (zlen row)) w)
  halonodes w_haloghost.
Definition haloghost_value_neumann (w_halo w_haloghost : list R) (hg : list (list gentry)) (BCindex : Z) (halonodes : list Z) : res (list R) :=
  haloghost_loop (fun e => get w_halo (g_cell e)) hg BCindex halonodes w_haloghost.
Definition haloghost_value_dirichlet (value w_haloghost : list R) (hg : list (list gentry)) (BCindex : Z) (halonodes : list Z) : res (list R) :=
  haloghost_loop (fun e => get value (g_last e)) hg BCindex halonodes w_haloghost.
(** the value is read at the ghost's own index (l.92-93) *)
Definition haloghost_value_nonslip (w_halo w_haloghost : list R) (hg : list (list gentry)) (BCindex : Z) (halonodes : list Z) : res (list R) :=
  haloghost_loop (fun e => do v <- get w_halo (g_last e); ret (-1 * v)%R) hg BCindex halonodes w_haloghost.

(** core.py:490-493, one boundary; core.py:71-85 for the choice of the functions.  A boundary of an unknown type cannot exist. *)
Definition update_one (D : bcdom) (h : heap) (b : boundary) : res heap :=
  do vf <- get h (b_vface b); do vh <- get h (b_vhalo b); do g <- get h r_ghost; do hg <- get h r_haloghost;
  let faces := bc_faces D (b_loc b) in
  do gs <- match b_type b with
    | BNeumann | BPeriodic => do g <- ghost_value_neumann vf g (bd_cellid D) faces; do hg <- haloghost_value_neumann vh hg (bd_hg D) (b_index b) (bd_halonodes D); ret (g, hg)
    | BDirichlet => do g <- ghost_value_dirichlet vf g (bd_cellid D) faces; do hg <- haloghost_value_dirichlet vh hg (bd_hg D) (b_index b) (bd_halonodes D); ret (g, hg)
    | BNonslip => do g <- ghost_value_nonslip vf g (bd_cellid D) faces; do hg <- haloghost_value_nonslip vh hg (bd_hg D) (b_index b) (bd_halonodes D); ret (g, hg)
    | BSlip | BOther => Err AttributeError
    end;
  do h <- set h r_ghost (fst gs); set h r_haloghost (snd gs).
(** core.py:489-493 update_ghost_value: every key of _BCs, in order; an absent boundary is None and has no attribute *)
Definition update_ghost_value (D : bcdom) (v : variable) : res variable :=
  do h <- foldM (fun h l => match lookup (va_bcs v) l with None => Err AttributeError | Some b => update_one D h b end) (locs (bd_dim D)) (va_heap v);
  ret {| va_heap := h; va_cell := va_cell v; va_bcs := va_bcs v; va_dirichletfaces := va_dirichletfaces v; va_neumannfaces := va_neumannfaces v;
         va_BCdirichlet := va_BCdirichlet v; va_BCneumann := va_BCneumann v |}.

(** [var.cell[:] = w]: the array changes in place *)
Definition fill_cell (v : variable) (w : list R) : res variable :=
  do h <- set (va_heap v) (va_cell v) w;
  ret {| va_heap := h; va_cell := va_cell v; va_bcs := va_bcs v; va_dirichletfaces := va_dirichletfaces v; va_neumannfaces := va_neumannfaces v;
         va_BCdirichlet := va_BCdirichlet v; va_BCneumann := va_BCneumann v |}.
(** [var.cell = w] (linearsystem.py:355, 369): the attribute denotes a new array *)
Definition assign_cell (v : variable) (w : list R) : variable :=
  {| va_heap := va_heap v ++ [w]; va_cell := zlen (va_heap v); va_bcs := va_bcs v; va_dirichletfaces := va_dirichletfaces v; va_neumannfaces := va_neumannfaces v;
     va_BCdirichlet := va_BCdirichlet v; va_BCneumann := va_BCneumann v |}.
Definition cell_of (v : variable) : res (list R) := get (va_heap v) (va_cell v).
Definition ghost_of (v : variable) : res (list R) := get (va_heap v) r_ghost.
