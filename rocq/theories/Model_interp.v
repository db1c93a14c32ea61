(** * Model_interp: least-squares interpolation to nodes, cell and face gradients, limiter, face-to-cell mean.
    Models manapy/ddm/pyccel_ddm.py:285-338 (face_gradient_info_2d), 343-446 (variables), 451-623 (variables_3d),
    manapy/ddm/numba_ddm.py:1313-1386 (face_gradient_info_3d), manapy/ast/pyccel_functions.py:121-863 and 2111-2120,
    manapy/comms/communication.py:190-216 / 369-395 (padding of the ghost tables).
    Floats are reals.  A division by zero gives [None] (inf/nan in the compiled kernels), which does not
    disturb the other entries.  The 2D and 3D functions are one definition with parameter [dim] where they have
    the same structure; in 2D the z component of every displacement is 0, so that z terms vanish. *)
From Verif Require Import Py Model_part Model_label Model_conn Model_geom Model_halo.
Open Scope Z_scope.

Definition odiv (a b : R) : option R := if Req_EM_T b 0 then None else Some (a / b)%R.
Definition oadd (a b : option R) : option R := match a, b with Some x, Some y => Some (x + y)%R | _, _ => None end.

(** an entry [x, y, (z,) cell, name, last] of nodes.ghostcenter / nodes.haloghostcenter: [last] is the face number /
    the running halo-ghost number, -1 in padding entries *)
Record gentry := { g_pt : pt; g_cell : Z; g_name : Z; g_last : Z }.
Definition gpad : gentry := {| g_pt := P3 (-1) (-1) (-1); g_cell := -1; g_name := -1; g_last := -1 |}.
Definition entry_of (e : nodeghost) : gentry := {| g_pt := ng_pt e; g_cell := ng_cell e; g_name := ng_name e; g_last := ng_face e |}.
(** communication.py:190-202 / 369-381 (and 204-216 / 383-395 for the halo ghosts) *)
Definition pad_rows (rows : list (list gentry)) : list (list gentry) :=
  let m := fold_left (fun m r => Z.max m (zlen r)) rows 0 in
  map (fun r => let r' := r ++ repeat gpad (Z.to_nat (m - zlen r)) in
                if zlen r' =? 0 then r' ++ [gpad] else r') rows.

(** [for j in range(row[-1]): s = f(s, row[j])] *)
Definition count_loop {A} (row : list Z) (f : A -> Z -> res A) (a : A) : res A :=
  do n <- get row (-1); foldM (fun a j => do c <- get row j; f a c) (range n) a.
(** [for j in range(len(rows)): cell = int(rows[j][-1]); if cell != -1: s = f(s, rows[j])] *)
Definition ghost_loop {A} (rows : list gentry) (f : A -> gentry -> res A) (a : A) : res A :=
  foldM (fun a e => if g_last e =? -1 then ret a else f a e) rows a.

(** the tables read by the node interpolation: vertexn[:,0:3], vertexn[:,3] (the label read from the file), nodes.name ... *)
Record nodedata := { nd_centerc : list pt; nd_cellid : list (list Z); nd_haloid : list (list Z); nd_periodic : list (list Z);
  nd_vertex : list pt; nd_old : list Z; nd_name : list Z; nd_ghost : list (list gentry); nd_haloghost : list (list gentry);
  nd_centerh : list pt; nd_shift : list pt }.

(** pyccel_ddm.py:385-404 / 509-560: where the centre of a periodic neighbour is taken *)
Definition axis_shift (dim old : Z) : option (pt -> pt -> pt) :=
  if (old =? 11) || (old =? 22) then Some (fun c s => P3 (px c + px s) (py c) (pz c))
  else if (old =? 33) || (old =? 44) then Some (fun c s => P3 (px c) (py c + py s) (pz c))
  else if (dim =? 3) && ((old =? 55) || (old =? 66)) then Some (fun c s => P3 (px c) (py c) (pz c + pz s))
  else None.

Definition disp (dim : Z) (p v : pt) : pt := P3 (px p - px v) (py p - py v) (if dim =? 2 then 0 else pz p - pz v).

(** I_xx .. I_yz, R_x .. R_z, number *)
Record moments := { m_xx : R; m_yy : R; m_zz : R; m_xy : R; m_xz : R; m_yz : R; m_x : R; m_y : R; m_z : R; m_n : Z }.
Definition m0 : moments := {| m_xx := 0; m_yy := 0; m_zz := 0; m_xy := 0; m_xz := 0; m_yz := 0; m_x := 0; m_y := 0; m_z := 0; m_n := 0 |}.
(** pyccel_ddm.py:359-366 / 470-485 *)
Definition m_add (m : moments) (d : pt) : moments :=
  {| m_xx := m_xx m + px d * px d; m_yy := m_yy m + py d * py d; m_zz := m_zz m + pz d * pz d;
     m_xy := m_xy m + px d * py d; m_xz := m_xz m + px d * pz d; m_yz := m_yz m + py d * pz d;
     m_x := m_x m + px d; m_y := m_y m + py d; m_z := m_z m + pz d; m_n := m_n m + 1 |}.

(** pyccel_ddm.py:444-446 *)
Definition lambda2 (m : moments) : option pt :=
  let D := (m_xx m * m_yy m - m_xy m * m_xy m)%R in
  match odiv (m_xy m * m_y m - m_yy m * m_x m) D, odiv (m_xy m * m_x m - m_xx m * m_y m) D with
  | Some lx, Some ly => Some (P3 lx ly 0) | _, _ => None end.
(** pyccel_ddm.py:619-623 *)
Definition lambda3 (m : moments) : option pt :=
  let D := (m_xx m * m_yy m * m_zz m + 2 * m_xy m * m_xz m * m_yz m - m_xx m * m_yz m * m_yz m - m_yy m * m_xz m * m_xz m - m_zz m * m_xy m * m_xy m)%R in
  match
    odiv ((m_yz m * m_yz m - m_yy m * m_zz m) * m_x m + (m_xy m * m_zz m - m_xz m * m_yz m) * m_y m + (m_xz m * m_yy m - m_xy m * m_yz m) * m_z m) D,
    odiv ((m_xy m * m_zz m - m_xz m * m_yz m) * m_x m + (m_xz m * m_xz m - m_xx m * m_zz m) * m_y m + (m_yz m * m_xx m - m_xz m * m_xy m) * m_z m) D,
    odiv ((m_xz m * m_yy m - m_xy m * m_yz m) * m_x m + (m_yz m * m_xx m - m_xz m * m_xy m) * m_y m + (m_xy m * m_xy m - m_xx m * m_yy m) * m_z m) D
  with Some lx, Some ly, Some lz => Some (P3 lx ly lz) | _, _, _ => None end.

Record nodevar := { nv_R : pt; nv_number : Z; nv_lambda : option pt }.
(** pyccel_ddm.py:356-446 / 467-623, body of [variables] / [variables_3d] for node i; the output arrays enter as zeros (domain.py:528-532, 578-579) *)
Definition node_variables (dim : Z) (N : nodedata) (i : Z) : res nodevar :=
  do v <- get (nd_vertex N) i; do old <- get (nd_old N) i; do nm <- get (nd_name N) i;
  do row <- get (nd_cellid N) i;
  do m <- count_loop row (fun m c => do p <- get (nd_centerc N) c; ret (m_add m (disp dim p v))) m0;
  do gs <- get (nd_ghost N) i; do e0 <- get gs 0;
  do m <- (if g_cell e0 =? -1 then ret m else ghost_loop gs (fun m e => ret (m_add m (disp dim (g_pt e) v))) m);
  do m <- match axis_shift dim old with
          | None => ret m
          | Some f => do prow <- get (nd_periodic N) i;
              count_loop prow (fun m c => do p <- get (nd_centerc N) c; do s <- get (nd_shift N) c; ret (m_add m (disp dim (f p s) v))) m
          end;
  do m <- (if nm =? 10 then
             do hg <- get (nd_haloghost N) i; do hrow <- get (nd_haloid N) i;
             if dim =? 2 then
               do m <- ghost_loop hg (fun m e => ret (m_add m (disp dim (g_pt e) v))) m;
               count_loop hrow (fun m c => do p <- get (nd_centerh N) c; ret (m_add m (disp dim p v))) m
             else
               do m <- count_loop hrow (fun m c => do p <- get (nd_centerh N) c; ret (m_add m (disp dim p v))) m;
               ghost_loop hg (fun m e => ret (m_add m (disp dim (g_pt e) v))) m
           else ret m);
  ret {| nv_R := P3 (m_x m) (m_y m) (m_z m); nv_number := m_n m; nv_lambda := if dim =? 2 then lambda2 m else lambda3 m |}.
Definition variables (dim : Z) (N : nodedata) : res (list nodevar) :=
  mapM (node_variables dim N) (range (zlen (nd_vertex N))).

(** the arrays holding the values of a variable: var.cell, var.ghost, var.halo, var.haloghost *)
Record values := { w_c : list R; w_ghost : list R; w_halo : list R; w_haloghost : list R }.

(** pyccel_functions.py:587 / 673-675 *)
Definition alpha (nv : nodevar) (d : pt) : option R :=
  match nv_lambda nv with
  | None => None
  | Some l => odiv (1 + px l * px d + py l * py d + pz l * pz d)
                   (IZR (nv_number nv) + px l * px (nv_R nv) + py l * py (nv_R nv) + pz l * pz (nv_R nv))
  end.
(** pyccel_functions.py:589 *)
Definition weigh (nv : nodevar) (s : option R) (d : pt) (w : R) : option R :=
  oadd s (match alpha nv d with Some a => Some (a * w)%R | None => None end).
(** pyccel_functions.py:580-648 / 663-766, body of centertovertex_2d / centertovertex_3d for node i *)
Definition node_value (dim : Z) (N : nodedata) (nvs : list nodevar) (W : values) (i : Z) : res (option R) :=
  do v <- get (nd_vertex N) i; do old <- get (nd_old N) i; do nm <- get (nd_name N) i; do nv <- get nvs i;
  do row <- get (nd_cellid N) i;
  do s <- count_loop row (fun s c => do p <- get (nd_centerc N) c; do w <- get (w_c W) c; ret (weigh nv s (disp dim p v) w)) (Some 0%R);
  do gs <- get (nd_ghost N) i; do e0 <- get gs 0;
  do s <- (if g_cell e0 =? -1 then ret s else
           ghost_loop gs (fun s e => do w <- get (w_ghost W) (g_last e); ret (weigh nv s (disp dim (g_pt e) v) w)) s);
  do s <- match axis_shift dim old with
          | None => ret s
          | Some f => do prow <- get (nd_periodic N) i;
              count_loop prow (fun s c => do p <- get (nd_centerc N) c; do sh <- get (nd_shift N) c; do w <- get (w_c W) c;
                                          ret (weigh nv s (disp dim (f p sh) v) w)) s
          end;
  if nm =? 10 then
    do hg <- get (nd_haloghost N) i; do hrow <- get (nd_haloid N) i;
    do s <- ghost_loop hg (fun s e => do w <- get (w_haloghost W) (g_last e); ret (weigh nv s (disp dim (g_pt e) v) w)) s;
    count_loop hrow (fun s c => do p <- get (nd_centerh N) c; do w <- get (w_halo W) c; ret (weigh nv s (disp dim p v) w)) s
  else ret s.
Definition centertovertex (dim : Z) (N : nodedata) (nvs : list nodevar) (W : values) : res (list (option R)) :=
  mapM (node_value dim N nvs W) (range (zlen (nd_vertex N))).

(** ** Cell gradient *)
Record celldata := { cd_centerc : list pt; cd_cellnid : list (list Z); cd_halonid : list (list Z); cd_nodes : list (list Z);
  cd_periodicnid : list (list Z); cd_periodic : list (list Z); cd_old : list Z;
  cd_ghost : list (list gentry); cd_haloghost : list (list gentry); cd_centerh : list pt; cd_shift : list pt }.

(** i_xx .. i_yz and j_xw, j_yw (2D) / j_x, j_y, j_z (3D) *)
Record lsq := { q_m : moments; q_j : pt }.
Definition q0 : lsq := {| q_m := m0; q_j := p0 |}.
Definition q_add (q : lsq) (d : pt) (dw : R) : lsq := {| q_m := m_add (q_m q) d; q_j := padd (q_j q) (pscal dw d) |}.
(** pyccel_functions.py:222-226 *)
Definition grad2 (q : lsq) : option pt :=
  let m := q_m q in let dia := (m_xx m * m_yy m - m_xy m * m_xy m)%R in
  match odiv (m_yy m * px (q_j q) - m_xy m * py (q_j q)) dia, odiv (m_xx m * py (q_j q) - m_xy m * px (q_j q)) dia with
  | Some gx, Some gy => Some (P3 gx gy 0) | _, _ => None end.
(** pyccel_functions.py:351-355 *)
Definition grad3 (q : lsq) : option pt :=
  let m := q_m q in let j := q_j q in
  let dia := (m_xx m * m_yy m * m_zz m + 2 * m_xy m * m_xz m * m_yz m - m_xx m * (m_yz m * m_yz m) - m_yy m * (m_xz m * m_xz m) - m_zz m * (m_xy m * m_xy m))%R in
  match
    odiv ((m_yy m * m_zz m - m_yz m * m_yz m) * px j + (m_xz m * m_yz m - m_xy m * m_zz m) * py j + (m_xy m * m_yz m - m_xz m * m_yy m) * pz j) dia,
    odiv ((m_xz m * m_yz m - m_xy m * m_zz m) * px j + (m_xx m * m_zz m - m_xz m * m_xz m) * py j + (m_xy m * m_xz m - m_yz m * m_xx m) * pz j) dia,
    odiv ((m_xy m * m_yz m - m_xz m * m_yy m) * px j + (m_xy m * m_xz m - m_yz m * m_xx m) * py j + (m_xx m * m_yy m - m_xy m * m_xy m) * pz j) dia
  with Some gx, Some gy, Some gz => Some (P3 gx gy gz) | _, _, _ => None end.

(** pyccel_functions.py:191-220 / 307-348, the ghosts and halo ghosts of node k of the cell;
    [upd q d w] accumulates one displacement with its value *)
Definition node_ghosts {A} (C : celldata) (W : values) (limit nod : Z) (upd : A -> pt -> R -> A) (q : A) : res A :=
  do old <- get (cd_old C) nod;
  do q <- (if old <=? limit then
             do gs <- get (cd_ghost C) nod;
             ghost_loop gs (fun q e => do w <- get (w_ghost W) (g_last e); ret (upd q (g_pt e) w)) q
           else ret q);
  do hg <- get (cd_haloghost C) nod;
  ghost_loop hg (fun q e => do w <- get (w_haloghost W) (g_last e); ret (upd q (g_pt e) w)) q.

(** pyccel_functions.py:147-175, the periodic neighbours of a node of the cell *)
Definition node_periodic (C : celldata) (W : values) (nod : Z) (upd : lsq -> pt -> R -> lsq) (q : lsq) : res lsq :=
  do old <- get (cd_old C) nod;
  do q <- (if (old =? 11) || (old =? 22) then
             do prow <- get (cd_periodic C) nod;
             count_loop prow (fun q c => do p <- get (cd_centerc C) c; do s <- get (cd_shift C) c; do w <- get (w_c W) c;
                                         ret (upd q (P3 (px p + px s) (py p) (pz p)) w)) q
           else ret q);
  if (old =? 33) || (old =? 44) then
    do prow <- get (cd_periodic C) nod;
    count_loop prow (fun q c => do p <- get (cd_centerc C) c; do s <- get (cd_shift C) c; do w <- get (w_c W) c;
                                ret (upd q (P3 (px p) (py p + py s) (pz p)) w)) q
  else ret q.

(** pyccel_functions.py:132-226, body of cell_gradient_2d for cell i *)
Definition cell_gradient2 (C : celldata) (W : values) (i : Z) : res (option pt) :=
  do x <- get (cd_centerc C) i; do wi <- get (w_c W) i;
  let upd q p w := q_add q (disp 2 p x) (w - wi) in
  do row <- get (cd_cellnid C) i;
  do q <- count_loop row (fun q c => do p <- get (cd_centerc C) c; do w <- get (w_c W) c; ret (upd q p w)) q0;
  do q <- foldM (fun q k => do nod <- get2 (cd_nodes C) i k; node_periodic C W nod upd q) (range 3) q;
  do hrow <- get (cd_halonid C) i;
  do q <- count_loop hrow (fun q c => do p <- get (cd_centerh C) c; do w <- get (w_halo W) c; ret (upd q p w)) q;
  do q <- foldM (fun q k => do nod <- get2 (cd_nodes C) i k; node_ghosts C W 4 nod upd q) (range 3) q;
  ret (grad2 q).

(** pyccel_functions.py:249-348: in 3D the local names jx, jy, jz survive the loops; [None] is "not yet assigned" *)
Definition lsq3 := (lsq * option pt)%type.
Definition upd3 (x : pt) (wi : R) (s : lsq3) (p : pt) (w : R) : lsq3 :=
  (q_add (fst s) (disp 3 p x) (w - wi), Some (disp 3 p x)).
(** pyccel_functions.py:270-286: j_x, j_y, j_z are overwritten and the moments use the stale jx, jy, jz *)
Definition periodic3 (C : celldata) (W : values) (x : pt) (wi : R) (s : lsq3) (c : Z) : res lsq3 :=
  do p <- get (cd_centerc C) c; do sh <- get (cd_shift C) c; do w <- get (w_c W) c;
  match snd s with
  | None => Err UnboundLocalError
  | Some d => ret ({| q_m := m_add (q_m (fst s)) d; q_j := padd (psub (padd p sh) x) (pscal (w - wi) d) |}, Some d)
  end.
(** pyccel_functions.py:241-355, body of cell_gradient_3d for cell i *)
Definition cell_gradient3 (C : celldata) (W : values) (last : option pt) (i : Z) : res (option pt * option pt) :=
  do x <- get (cd_centerc C) i; do wi <- get (w_c W) i;
  do row <- get (cd_cellnid C) i;
  do s <- count_loop row (fun s c => do p <- get (cd_centerc C) c; do w <- get (w_c W) c; ret (upd3 x wi s p w)) (q0, last);
  do prow <- get (cd_periodicnid C) i;
  do s <- count_loop prow (periodic3 C W x wi) s;
  do hrow <- get (cd_halonid C) i;
  do s <- count_loop hrow (fun s c => do p <- get (cd_centerh C) c; do w <- get (w_halo W) c; ret (upd3 x wi s p w)) s;
  do s <- foldM (fun s k => do nod <- get2 (cd_nodes C) i k; node_ghosts C W 6 nod (upd3 x wi) s) (range 4) s;
  ret (grad3 (fst s), snd s).
Definition cell_gradient (dim : Z) (C : celldata) (W : values) : res (list (option pt)) :=
  if dim =? 2 then mapM (cell_gradient2 C W) (range (zlen (w_c W)))
  else do s <- foldM (fun s i => do r <- cell_gradient3 C W (snd s) i; ret (fst s ++ [fst r], snd r)) (range (zlen (w_c W))) ([], None);
       ret (fst s).

(** ** Diamond scheme *)
Record facedata := { fd_cellid : list (list Z); fd_nodes : list (list Z); fd_ghost : list pt; fd_name : list Z; fd_normal : list pt;
  fd_centerc : list pt; fd_centerh : list pt; fd_halofid : list Z; fd_vertex : list pt; fd_shift : list pt }.
(** pyccel_ddm.py:312-323 / numba_ddm.py:1343-1362 *)
Definition right_center (dim : Z) (G : facedata) (i : Z) : res pt :=
  do nm <- get (fd_name G) i; do c_right <- get2 (fd_cellid G) i 1;
  if nm =? 0 then get (fd_centerc G) c_right
  else match axis_shift dim nm with
       | Some f => do p <- get (fd_centerc G) c_right; do s <- get (fd_shift G) c_right; ret (f p s)
       | None => if nm =? 10 then do h <- get (fd_halofid G) i; get (fd_centerh G) h else get (fd_ghost G) i
       end.
(** the face arrays: f_1 .. f_4 (in 3D f_1 = n1 and f_2 = n2), airDiamond, param1 .. param4 *)
Record diamond := { di_f1 : pt; di_f2 : pt; di_f3 : pt; di_f4 : pt; di_air : R; di_p1 : option R; di_p2 : option R; di_p3 : option R; di_p4 : option R }.
(** pyccel_ddm.py:298-338 *)
Definition diamond2 (G : facedata) (i : Z) : res diamond :=
  do c_left <- get2 (fd_cellid G) i 0;
  do i1 <- get2 (fd_nodes G) i 0; do i2 <- get2 (fd_nodes G) i 1;
  do xy1 <- get (fd_vertex G) i1; do xy2 <- get (fd_vertex G) i2;
  do v1 <- get (fd_centerc G) c_left; do v2 <- right_center 2 G i;
  do n <- get (fd_normal G) i;
  let f1 := disp 2 v1 xy1 in let f2 := disp 2 xy2 v1 in let f3 := disp 2 v2 xy2 in let f4 := disp 2 xy1 v2 in
  let air := (1/2 * ((px xy2 - px xy1) * (py v2 - py v1) + (px v1 - px v2) * (py xy2 - py xy1)))%R in
  let param fa fb := match odiv 1 (2 * air) with Some k => Some (k * ((py fa + py fb) * px n - (px fa + px fb) * py n))%R | None => None end in
  ret {| di_f1 := f1; di_f2 := f2; di_f3 := f3; di_f4 := f4; di_air := air;
         di_p1 := param f1 f2; di_p2 := param f2 f3; di_p3 := param f3 f4; di_p4 := param f4 f1 |}.
(** numba_ddm.py:1331-1386 *)
Definition diamond3 (G : facedata) (i : Z) : res diamond :=
  do c_left <- get2 (fd_cellid G) i 0;
  do i1 <- get2 (fd_nodes G) i 0; do i2 <- get2 (fd_nodes G) i 1; do i3 <- get2 (fd_nodes G) i 2;
  let i4 := i3 in
  do v1 <- get (fd_centerc G) c_left; do v2 <- right_center 3 G i;
  do x1 <- get (fd_vertex G) i1; do x2 <- get (fd_vertex G) i2; do x3 <- get (fd_vertex G) i3; do x4 <- get (fd_vertex G) i4;
  do n <- get (fd_normal G) i;
  let s1 := psub v2 x2 in let s2 := psub x4 x2 in let s3 := psub v1 x2 in
  let n1 := padd (pscal (1/2) (pcross s1 s2)) (pscal (1/2) (pcross s2 s3)) in
  let s4 := psub v2 x3 in let s5 := psub x1 x3 in let s6 := psub v1 x3 in
  let n2 := padd (pscal (1/2) (pcross s4 s5)) (pscal (1/2) (pcross s5 s6)) in
  let s7 := psub v2 v1 in
  let air := pdot n s7 in
  ret {| di_f1 := n1; di_f2 := n2; di_f3 := p0; di_f4 := p0; di_air := air;
         di_p1 := odiv (pdot n1 n) air; di_p2 := odiv (pdot n2 n) air; di_p3 := odiv (pdot n n) air; di_p4 := Some 0%R |}.
Definition face_gradient_info (dim : Z) (G : facedata) : res (list diamond) :=
  mapM (if dim =? 2 then diamond2 G else diamond3 G) (range (zlen (fd_cellid G))).

(** pyccel_functions.py:368-380 / 457-475, one face of one of the five loops; [vr] is the value on the other side *)
Definition face_grad2 (G : facedata) (D : list diamond) (W : values) (w_node : list R) (i : Z) (vv2 : R) : res (option pt) :=
  do c_left <- get2 (fd_cellid G) i 0;
  do i1 <- get2 (fd_nodes G) i 0; do i2 <- get2 (fd_nodes G) i 1;
  do vi1 <- get w_node i1; do vi2 <- get w_node i2; do vv1 <- get (w_c W) c_left;
  do d <- get D i;
  ret (match odiv 1 (2 * di_air d), odiv (-1) (2 * di_air d) with
       | Some k, Some k' =>
         Some (P3 (k * ((vi1 + vv1) * py (di_f1 d) + (vv1 + vi2) * py (di_f2 d) + (vi2 + vv2) * py (di_f3 d) + (vv2 + vi1) * py (di_f4 d)))
                  (k' * ((vi1 + vv1) * px (di_f1 d) + (vv1 + vi2) * px (di_f2 d) + (vi2 + vv2) * px (di_f3 d) + (vv2 + vi1) * px (di_f4 d))) 0)
       | _, _ => None end).
Definition face_grad3 (G : facedata) (D : list diamond) (W : values) (w_node : list R) (i : Z) (v_r : R) : res (option pt) :=
  do c_left <- get2 (fd_cellid G) i 0;
  do i1 <- get2 (fd_nodes G) i 0; do i2 <- get2 (fd_nodes G) i 1; do i3 <- get2 (fd_nodes G) i 2;
  let i4 := i3 in
  do v_a <- get w_node i1; do v_b <- get w_node i2; do v_c <- get w_node i3; do v_d <- get w_node i4;
  do v_l <- get (w_c W) c_left;
  do d <- get D i; do n <- get (fd_normal G) i;
  let comp c := odiv (c (di_f1 d) * (v_a - v_c) + c (di_f2 d) * (v_b - v_d) + c n * (v_r - v_l)) (di_air d) in
  ret (match comp px, comp py, comp pz with Some gx, Some gy, Some gz => Some (P3 gx gy gz) | _, _, _ => None end).
(** the lists of faces the loops run over *)
Record facelists := { fl_inner : list Z; fl_periodic : list Z; fl_halo : list Z; fl_dirichlet : list Z; fl_neumann : list Z }.
(** pyccel_functions.py:366-446 / 455-564; [g] are the arrays gradfacex/y/z on entry *)
Definition face_gradient (dim : Z) (G : facedata) (D : list diamond) (L : facelists) (W : values) (w_node : list R) (g : list (option pt))
    : res (list (option pt)) :=
  let step i v g := do r <- (if dim =? 2 then face_grad2 else face_grad3) G D W w_node i v; set g i r in
  let cells g i := do c <- get2 (fd_cellid G) i 1; do v <- get (w_c W) c; step i v g in
  let halos g i := do h <- get (fd_halofid G) i; do v <- get (w_halo W) h; step i v g in
  let ghosts g i := do v <- get (w_ghost W) i; step i v g in
  do g <- foldM cells (fl_inner L) g;
  do g <- foldM cells (fl_periodic L) g;
  do g <- foldM halos (fl_halo L) g;
  do g <- foldM ghosts (fl_dirichlet L) g;
  foldM ghosts (fl_neumann L) g.

(** ** Barth limiter *)
Record limdata := { ld_cellid : list (list Z); ld_faceid : list (list Z); ld_name : list Z; ld_halofid : list Z;
  ld_centerc : list pt; ld_centerf : list pt }.
(** pyccel_functions.py:785-794 / 833-841: the value on the other side of the face *)
Definition lim_other (dim : Z) (B : limdata) (W : values) (face : Z) : res R :=
  do nm <- get (ld_name B) face;
  if (nm =? 0) || (10 <? nm) then do c1 <- get2 (ld_cellid B) face 1; get (w_c W) c1
  else if (if dim =? 2 then (nm =? 1) || (nm =? 2) || (nm =? 3) || (nm =? 4) else negb (nm =? 10)) then get (w_ghost W) face
  else do h <- get (ld_halofid B) face; get (w_halo W) h.
Definition lim_range (dim : Z) (B : limdata) (W : values) (i : Z) (mm : R * R) (j : Z) : res (R * R) :=
  do face <- get2 (ld_faceid B) i j;
  do c0 <- get2 (ld_cellid B) face 0; do w0 <- get (w_c W) c0;
  do w1 <- lim_other dim B W face;
  ret (Rmin (Rmin (fst mm) w0) w1, Rmax (Rmax (snd mm) w0) w1).
(** pyccel_functions.py:805 / 853 *)
Definition lim_eps (dim : Z) : R := if dim =? 2 then (1 / 100000000)%R else (1 / 10000000000)%R.
(** pyccel_functions.py:796-815 / 843-863 *)
Definition lim_face (dim : Z) (B : limdata) (W : values) (grads : list pt) (i : Z) (mm : R * R) (psi : R) (j : Z) : res R :=
  do face <- get2 (ld_faceid B) i j;
  do xf <- get (ld_centerf B) face; do xc <- get (ld_centerc B) i; do g <- get grads i; do wi <- get (w_c W) i;
  let r := disp dim xf xc in
  let delta2 := (px g * px r + py g * py r + pz g * pz r)%R in
  let psi_ij := if Rlt_dec (Rabs delta2) (lim_eps dim) then 1%R
                else if Rlt_dec 0 delta2 then Rmin 1 ((snd mm - wi) / delta2)
                else Rmin 1 ((fst mm - wi) / delta2) in
  ret (Rmin psi psi_ij).
Definition barth_cell (dim : Z) (B : limdata) (W : values) (grads : list pt) (i : Z) : res R :=
  do wi <- get (w_c W) i;
  do mm <- foldM (lim_range dim B W i) (range (dim + 1)) (wi, wi);
  foldM (lim_face dim B W grads i mm) (range (dim + 1)) 1%R.
(** barthlimiter_2d / barthlimiter_3d *)
Definition barthlimiter (dim : Z) (B : limdata) (W : values) (grads : list pt) : res (list R) :=
  mapM (barth_cell dim B W grads) (range (zlen (w_c W))).

(** ** pyccel_functions.py:2111-2120 facetocell *)
Definition facetocell (u_face u_c : list R) (faceidc : list (list Z)) (dim : Z) : res (list R) :=
  do u <- for_each (zlen u_c) (fun i _ => foldM (fun s j => do f <- get2 faceidc i j; do v <- get u_face f; ret (s + v)%R) (range (dim + 1)) 0%R) u_c;
  ret (map (fun x => (x / IZR (dim + 1))%R) u).
