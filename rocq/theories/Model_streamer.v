(** * Model_streamer: the streamer model.
    Models manapy/models/StreamerModel/tools.py:2-232 and StreamerModel, manapy/models/StreamerModel/core.py:21-151.  Floats are reals; the three arrays of a vector field are one list of points. *)
From Coq Require Import String Reals Rpower.
From Verif Require Import Py Model_part Model_conn Model_geom Model_interp Model_fvm.
Open Scope Z_scope.

(** 1.8096e-8 (tools.py:5, 11), n = 2.5e19 (tools.py:73, 93, 138, 197) *)
Definition charge (ne ni : R) : R := (18096 / 1000000000000 * (ne - ni))%R.
Definition gas : R := 25000000000000000000%R.
(** tools.py:2-5 update_rhs_glob *)
Definition update_rhs_glob (ne ni : list R) (loctoglob : list Z) (rhs : list R) : res (list R) :=
  foldM (fun rhs i => do g <- get loctoglob i; do a <- get ne i; do b <- get ni i; set rhs g (charge a b)) (range (zlen ne)) rhs.
(** tools.py:7-11 update_rhs_loc *)
Definition update_rhs_loc (ne ni : list R) (loctoglob : list Z) (rhs : list R) : res (list R) :=
  foldM (fun rhs i => do a <- get ne i; do b <- get ni i; set rhs i (charge a b)) (range (zlen ne)) rhs.
(** core.py:118 comm.reduce(rhs_updated, op=SUM, root=0): what rank 0 gets *)
Definition reduce_sum (n : Z) (arrays : list (list R)) : list R := map (fun g => fold_left (fun s a => s + nthZ 0 a g)%R arrays 0%R) (range n).

(** tools.py:13-30 and 33-55 (three-dimensional) initialisation: electron and ion densities; P *)
Definition initial_density (base z : R) (c : pt) : R :=
  (10000000000000000 * exp (-1 * ((px c - 2 / 10) ^ 2 + (py c - 25 / 100) ^ 2 + z) / (1 / 100) ^ 2) + base)%R.
Definition initialisation_streamer (center : list pt) (Pinit : R) : list (R * R * R) :=
  map (fun c => let d := initial_density 1000000000 0 c in (d, d, Pinit * (1 - px c))%R) center.
Definition initialisation_streamer_3d (center : list pt) (Pinit : R) : list (R * R * R) :=
  map (fun c => let d := initial_density 1000000000000 ((pz c - 25 / 100) ^ 2) c in (d, d, Pinit * (5 / 10 - px c))%R) center.

(** sqrt(x**2 + y**2 + z**2) *)
Definition norm3 (a : pt) : R := sqrt (px a ^ 2 + py a ^ 2 + pz a ^ 2).
(** tools.py:76, 205: De for E > 0; E = norm3 is never negative *)
Definition diff_coef (E ve : R) : R := (334100000 * Rpower (E / gas) (54069 / 100000) * (ve / E))%R.
(** tools.py:68-86, face i.  At E = 0 the quotient is not a number, but De is then set to 0 *)
Definition dissip_streamer_face (vel Ef grads : list pt) (cellid : list (list Z)) (normal : list pt) (name : list Z) (a : list R) (i : Z) : res (list R) :=
  do n <- get normal i; do g <- get grads i; do e <- get Ef i; do v <- get vel i;
  let q := (px g * px n + py g * py n + pz g * pz n)%R in
  let E := norm3 e in let ve := norm3 v in
  let De := if Req_EM_T E 0 then 0%R else diff_coef E ve in
  let flux := (De * q)%R in
  do nm <- get name i; do c0 <- get2 cellid i 0;
  if nm =? 0 then do a <- add_at a c0 flux; do c1 <- get2 cellid i 1; add_at a c1 (- flux) else add_at a c0 flux.
(** tools.py:57-86 explicitscheme_dissipative_streamer *)
Definition dissipative_streamer (vel Ef grads : list pt) (cellid : list (list Z)) (normal : list pt) (name : list Z) (nbelements : Z) : res (list R) :=
  foldM (dissip_streamer_face vel Ef grads cellid normal name) (range (zlen cellid)) (zeros_like 0%R nbelements).

(** tools.py:105-109.  At E = 0: -5.593e-15/0. is -inf, exp(-inf) is 0 *)
Definition alpha_n (E : R) : R :=
  if Req_EM_T E 0 then 0%R
  else if Rlt_dec (15 / 10000000000000000) (E / gas) then (2 / 10000000000000000 * exp (- (7248 / 1000000000000000000) / (E / gas)))%R
  else (6619 / 100000000000000000000 * exp (- (5593 / 1000000000000000000) / (E / gas)))%R.
(** tools.py:113-117 *)
Definition branch_source (br : Z) (c : pt) : R :=
  let bump x z := (10000000000000000000000000 * exp (-1 * ((px c - x) ^ 2 + (py c - 25 / 100) ^ 2 + (pz c - z) ^ 2) / (5 / 1000) ^ 2))%R in
  if br =? 1 then bump (3 / 10)%R (28 / 100)%R else if br =? 2 then bump (31 / 100)%R (22 / 100)%R else 0%R.
(** tools.py:89-120 explicitscheme_source_streamer; the pairs (src_ne, src_ni) *)
Definition source_streamer (ne : list R) (vel E center : list pt) (br : Z) : res (list (R * R)) :=
  mapM (fun i => do c <- get center i; do e <- get E i; do v <- get vel i; do x <- get ne i;
    let S := (alpha_n (norm3 e) * norm3 v * x * gas + branch_source br c)%R in ret (S, S)) (range (zlen ne)).

(** tools.py:122-129 compute_el_field *)
Definition compute_el_field (Pgrad Ef : list pt) : res (list pt) := mapM (fun i => get Pgrad i) (range (zlen Ef)).

(** tools.py:143-169, one face; [old] is the velocity before *)
Definition face_velocity (e old : pt) : pt :=
  let E := norm3 e in let n := gas in
  let along k := P3 (-1 / E * k * px e) (-1 / E * k * py e) (-1 / E * k * pz e) in
  if Req_EM_T E 0 then P3 0 0 0
  else if Rlt_dec (2 / 1000000000000000) (E / n) then along (7400000000000000000000 * E / n + 7100000)%R
  else if Rlt_dec (1 / 10000000000000000) (E / n) then (if Rle_dec (E / n) (2 / 1000000000000000) then along (10300000000000000000000 * E / n + 1300000)%R else old)
  else if Rlt_dec (26 / 1000000000000000000) (E / n) then (if Rle_dec (E / n) (1 / 10000000000000000) then along (7297300000000000000000 * E / n + 1630000)%R else old)
  else if Rle_dec (E / n) (26 / 1000000000000000000) then along (68700000000000000000000 * E / n + 33800)%R else old.
(** tools.py:171-187: the mean over the faces of cell i *)
Definition face_mean (a : list pt) (faceid : list (list Z)) (dim i : Z) : res pt :=
  do s <- foldM (fun s j => do f <- get2 faceid i j; do x <- get a f; ret (padd s x)) (range (dim + 1)) p0;
  ret (P3 (px s / IZR (dim + 1)) (py s / IZR (dim + 1)) (pz s / IZR (dim + 1))).
(** tools.py:132-187 compute_velocity: velocity at faces, velocity and field in cells (arrays as long as faceid) *)
Definition compute_velocity (Ef vf : list pt) (faceid : list (list Z)) (dim : Z) : res (list pt * list pt * list pt) :=
  do vf <- mapM (fun i => do e <- get Ef i; do old <- get vf i; ret (face_velocity e old)) (range (zlen vf));
  do vc <- mapM (face_mean vf faceid dim) (range (zlen faceid));
  do Ec <- mapM (face_mean Ef faceid dim) (range (zlen faceid));
  ret (vf, vc, Ec).

(** tools.py:201-219, lam of cell i; [None]: not a number (in particular when the field of the cell is 0) *)
Definition lam_streamer (vel E : list pt) (normal : list pt) (mesure volume : list R) (faceid : list (list Z)) (dim i : Z) : res (option R) :=
  do v <- get vel i; do e <- get E i;
  let De := if Req_EM_T (norm3 e) 0 then None else Some (diff_coef (norm3 e) (norm3 v)) in
  foldM (fun lam j => do f <- get2 faceid i j; do n <- get normal f; do m <- get mesure f; do vol <- get volume i;
    let u_n := Rabs (px v * px n + py v * py n + pz v * pz n) in
    let mes := sqrt (px n * px n + py n * py n + pz n * pz n) in
    let conv := match odiv u_n m with Some x => Some (x * m)%R | None => None end in
    let dif := match De with Some d => odiv (d * mes ^ 2) vol | None => None end in
    ret (oadd (oadd lam conv) dif)) (range (dim + 1)) (Some 0%R).
(** tools.py:221: min(dt, x) keeps dt unless x < dt: not for nan and +inf.  [None]: -inf *)
Definition min_dt (dt : option R) (a : R) (lam : option R) : option R :=
  match dt with None => None | Some t =>
    match lam with None => Some t
    | Some l => if Req_EM_T l 0 then (if Rlt_dec a 0 then None else Some t) else Some (Rmin t (a / l)) end end.
(** tools.py:189-223 time_step_streamer *)
Definition time_step_streamer (vel E : list pt) (cfl : R) (normal : list pt) (mesure volume : list R) (faceid : list (list Z)) (dim : Z) : res (option R) :=
  foldM (fun dt i => do lam <- lam_streamer vel E normal mesure volume faceid dim i; do vol <- get volume i; ret (min_dt dt (cfl * vol) lam)) (range (zlen faceid)) (Some 1000000%R).

(** tools.py:225-232 update_streamer_flux; new (ne, ni) per cell, [None]: division by zero *)
Definition update_streamer_flux (ne ni rez_ne rez_ni dis_ne dis_ni : list R) (src : list (R * R)) (dtime : R) (vol : list R) : res (list (option R * option R)) :=
  let new x r d v s := match odiv (r + d) v with Some q => Some (x + dtime * (q + s))%R | None => None end in
  mapM (fun i => do a <- get ne i; do b <- get ni i; do r <- get rez_ne i; do q <- get rez_ni i; do d <- get dis_ne i; do e <- get dis_ni i; do s <- get src i; do v <- get vol i;
    ret (new a r d v (fst s), new b q e v (snd s))) (range (zlen ne)).

(** core.py:34-37 the terms; a list given is extended in place *)
Definition streamer_terms (terms : option (list string)) : list string :=
  match terms with None => ["convective"; "source"; "dissipation"]%string | Some t => (t ++ ["convective"]%string)%list end.
Record stmodel := { st_dim : Z; st_X : fvdata; st_L : fvlists; st_vol : list R; st_order : Z; st_terms : list string; st_dt : R }.
(** core.py:139-151 update_solution (branching = 0): source, convection of the electrons, diffusion of the electrons, update.  [A]: what the convection reads of ne (values, ghosts, halos, gradients,
    limiter), [grads]: the face gradients of ne, [Ef], [vf], [Ec], [vc]: field and velocity at faces and in cells.  ni.convective and ni.dissipation are zero from construction and never written.
    The arrays exist only for the terms given (ast/core.py:152-154). *)
Definition update_solution_streamer (M : stmodel) (A : advected) (grads Ef vf Ec vc : list pt) (ni : list R) : res (list (option R * option R)) :=
  let X := st_X M in let nc := zlen (ad_c A) in
  if negb (forallb (fun t => existsb (String.eqb t) (st_terms M)) ["convective"; "dissipation"; "source"]%string) then Err AttributeError else
  do src <- source_streamer (ad_c A) vc Ec (fv_centerc X) 0;
  do rez <- convective (st_dim M) (st_order M) X (st_L M) A vf nc;
  do dis <- dissipative_streamer vf Ef grads (fv_cellid X) (fv_normal X) (fv_name X) nc;
  update_streamer_flux (ad_c A) ni rez (zeros_like 0%R nc) dis (zeros_like 0%R nc) src (st_dt M) (st_vol M).
(** core.py:79 and 115: the global-size array of one rank, zero at first, after the calls of solve_linearSystem made so far; each call with the densities of that moment *)
Definition rhs_after (N : Z) (loctoglob : list Z) (calls : list (list R * list R)) : res (list R) :=
  foldM (fun rhs c => update_rhs_glob (fst c) (snd c) loctoglob rhs) calls (zeros_like 0%R N).
