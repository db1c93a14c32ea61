(** * Model_fvm: the explicit finite-volume kernels.
    Models manapy/fvm/pyccel_fvm.py:4-304 and manapy/tools/pyccel_tools.py:37-71.  Floats are reals.
    The 2D and 3D convective functions are one definition with parameter [dim] (the z terms are absent in 2D). *)
From Verif Require Import Py Model_part Model_conn Model_geom Model_interp.
Open Scope Z_scope.

(** [a[i] += v] *)
Definition add_at (a : list R) (i : Z) (v : R) : res (list R) := do x <- get a i; set a i (x + v)%R.

(** pyccel_fvm.py:30-41 *)
Definition compute_upwind_flux (w_l w_r : R) (vel normal : pt) : R :=
  let sign := (px vel * px normal + py vel * py normal + pz vel * pz normal)%R in
  let sol := if Rle_dec 0 sign then w_l else w_r in
  (sign * sol)%R.

(** faces.cellid, name, normal, center, halofid; cells.center, shift; halos.centvol *)
Record fvdata := { fv_cellid : list (list Z); fv_name : list Z; fv_normal : list pt; fv_centerf : list pt; fv_halofid : list Z;
  fv_centerc : list pt; fv_centerh : list pt; fv_shift : list pt }.
(** domain.innerfaces, periodicboundaryfaces, halofaces, boundaryfaces *)
Record fvlists := { ls_inner : list Z; ls_periodic : list Z; ls_halo : list Z; ls_boundary : list Z }.
(** the transported variable: cell, ghost, halo; gradcell(x,y,z), gradhalocell; psi, psihalo *)
Record advected := { ad_c : list R; ad_ghost : list R; ad_halo : list R; ad_grad : list pt; ad_gradh : list pt; ad_psi : list R; ad_psih : list R }.

(** pyccel_fvm.py:83 / 210 *)
Definition extrapolate (dim order : Z) (w psi : R) (g r : pt) : R :=
  (w + (IZR order - 1) * psi * (px g * px r + py g * py r + if dim =? 2 then 0 else pz g * pz r))%R.

(** state of the loops: rez_w, r_l, r_r (the last two survive from one face to the next) *)
Definition fvstate := (list R * pt * pt)%type.

(** pyccel_fvm.py:65-89 / 190-216 *)
Definition conv_inner (dim order : Z) (X : fvdata) (A : advected) (vel : list pt) (s : fvstate) (i : Z) : res fvstate :=
  do c0 <- get2 (fv_cellid X) i 0; do c1 <- get2 (fv_cellid X) i 1;
  do w_l <- get (ad_c A) c0; do n <- get (fv_normal X) i; do w_r <- get (ad_c A) c1;
  do xl <- get (fv_centerc X) c0; do xr <- get (fv_centerc X) c1;
  do gl <- get (ad_grad A) c0; do gr <- get (ad_grad A) c1; do pl <- get (ad_psi A) c0; do pr <- get (ad_psi A) c1;
  do xf <- get (fv_centerf X) i; do v <- get vel i;
  let rl := disp dim xf xl in let rr := disp dim xf xr in
  let flux := compute_upwind_flux (extrapolate dim order w_l pl gl rl) (extrapolate dim order w_r pr gr rr) v n in
  do rez <- add_at (fst (fst s)) c0 (- flux); do rez <- add_at rez c1 flux;
  ret (rez, rl, rr).
(** pyccel_fvm.py:106-112 / 234-247: [None] leaves r_l, r_r as they are *)
Definition periodic_r (dim name : Z) (xf xl xr sh : pt) : option (pt * pt) :=
  let d := disp dim xf xr in
  if (name =? 11) || (name =? 22) then Some (disp dim xf xl, P3 (px d - px sh) (py d) (pz d))
  else if (name =? 33) || (name =? 44) then Some (disp dim xf xl, P3 (px d) (py d - py sh) (pz d))
  else if (dim =? 3) && ((name =? 55) || (name =? 66)) then Some (disp dim xf xl, P3 (px d) (py d) (pz d - pz sh))
  else None.
(** pyccel_fvm.py:91-118 / 218-253 *)
Definition conv_periodic (dim order : Z) (X : fvdata) (A : advected) (vel : list pt) (s : fvstate) (i : Z) : res fvstate :=
  do c0 <- get2 (fv_cellid X) i 0; do c1 <- get2 (fv_cellid X) i 1;
  do w_l <- get (ad_c A) c0; do n <- get (fv_normal X) i; do w_r <- get (ad_c A) c1;
  do xl <- get (fv_centerc X) c0; do xr <- get (fv_centerc X) c1;
  do gl <- get (ad_grad A) c0; do gr <- get (ad_grad A) c1; do pl <- get (ad_psi A) c0; do pr <- get (ad_psi A) c1;
  do xf <- get (fv_centerf X) i; do sh <- get (fv_shift X) c1; do nm <- get (fv_name X) i; do v <- get vel i;
  let '(rl, rr) := match periodic_r dim nm xf xl xr sh with Some r => r | None => (snd (fst s), snd s) end in
  let flux := compute_upwind_flux (extrapolate dim order w_l pl gl rl) (extrapolate dim order w_r pr gr rr) v n in
  do rez <- add_at (fst (fst s)) c0 (- flux);
  ret (rez, rl, rr).
(** pyccel_fvm.py:121-143 / 256-280 *)
Definition conv_halo (dim order : Z) (X : fvdata) (A : advected) (vel : list pt) (s : fvstate) (i : Z) : res fvstate :=
  do c0 <- get2 (fv_cellid X) i 0; do h <- get (fv_halofid X) i;
  do w_l <- get (ad_c A) c0; do n <- get (fv_normal X) i; do w_r <- get (ad_halo A) h;
  do xl <- get (fv_centerc X) c0; do xr <- get (fv_centerh X) h;
  do gl <- get (ad_grad A) c0; do gr <- get (ad_gradh A) h; do pl <- get (ad_psi A) c0; do pr <- get (ad_psih A) h;
  do xf <- get (fv_centerf X) i; do v <- get vel i;
  let rl := disp dim xf xl in let rr := disp dim xf xr in
  let flux := compute_upwind_flux (extrapolate dim order w_l pl gl rl) (extrapolate dim order w_r pr gr rr) v n in
  do rez <- add_at (fst (fst s)) c0 (- flux);
  ret (rez, rl, rr).
(** pyccel_fvm.py:145-165 / 282-304 *)
Definition conv_boundary (dim order : Z) (X : fvdata) (A : advected) (vel : list pt) (s : fvstate) (i : Z) : res fvstate :=
  do c0 <- get2 (fv_cellid X) i 0;
  do w_l <- get (ad_c A) c0; do n <- get (fv_normal X) i; do w_r <- get (ad_ghost A) i;
  do xl <- get (fv_centerc X) c0; do gl <- get (ad_grad A) c0; do pl <- get (ad_psi A) c0;
  do xf <- get (fv_centerf X) i; do v <- get vel i;
  let rl := disp dim xf xl in
  let flux := compute_upwind_flux (extrapolate dim order w_l pl gl rl) w_r v n in
  do rez <- add_at (fst (fst s)) c0 (- flux);
  ret (rez, rl, snd s).
(** explicitscheme_convective_2d / explicitscheme_convective_3d; [nbelements] = len(rez_w) *)
Definition convective (dim order : Z) (X : fvdata) (L : fvlists) (A : advected) (vel : list pt) (nbelements : Z) : res (list R) :=
  let s := (zeros_like 0%R nbelements, p0, p0) in
  do s <- foldM (conv_inner dim order X A vel) (ls_inner L) s;
  do s <- foldM (conv_periodic dim order X A vel) (ls_periodic L) s;
  do s <- foldM (conv_halo dim order X A vel) (ls_halo L) s;
  do s <- foldM (conv_boundary dim order X A vel) (ls_boundary L) s;
  ret (fst (fst s)).

(** pyccel_fvm.py:4-27 explicitscheme_dissipative; [grads] = (wx_face, wy_face, wz_face), [D] = (Dxx, Dyy, Dzz) *)
Definition dissip_face (cellid : list (list Z)) (normal grads : list pt) (name : list Z) (D : pt) (a : list R) (i : Z) : res (list R) :=
  do n <- get normal i; do g <- get grads i;
  let q := (px D * px g * px n + py D * py g * py n + pz D * pz g * pz n)%R in
  do nm <- get name i; do c0 <- get2 cellid i 0;
  if nm =? 0 then do a <- add_at a c0 q; do c1 <- get2 cellid i 1; add_at a c1 (- q) else add_at a c0 q.
Definition dissipative (cellid : list (list Z)) (normal grads : list pt) (name : list Z) (D : pt) (nbelements : Z) : res (list R) :=
  foldM (dissip_face cellid normal grads name D) (range (zlen cellid)) (zeros_like 0%R nbelements).

(** pyccel_tools.py:51-60, [lam] of cell i; [None]: division by zero *)
Definition cell_lam (dim : Z) (vel normal : list pt) (mesure volume : list R) (faceid : list (list Z)) (D : pt) (i : Z) : res (option R) :=
  foldM (fun lam j =>
    do f <- get2 faceid i j; do n <- get normal f; do u <- get vel i; do m <- get mesure f; do vol <- get volume i;
    let u_n := Rabs (px u * px n + py u * py n + pz u * pz n) in
    let mes := sqrt (px n * px n + py n * py n + pz n * pz n) in
    let lam_diff := (px D * mes ^ 2 + py D * mes ^ 2 + pz D * mes ^ 2)%R in
    ret (oadd (oadd lam (match odiv u_n m with Some q => Some (q * m)%R | None => None end)) (odiv lam_diff vol)))
  (range (dim + 1)) (Some 0%R).
(** pyccel_tools.py:62, [dt = min(dt, cfl * volume[i]/lam)]: x / 0 is +inf for x > 0, which leaves dt; nan or -inf otherwise *)
Definition min_quot (dt : option R) (a : R) (b : option R) : option R :=
  match dt, b with
  | Some t, Some l => if Req_EM_T l 0 then (if Rlt_dec 0 a then Some t else None) else Some (Rmin t (a / l))
  | _, _ => None
  end.
(** pyccel_tools.py:37-64 time_step; [vel] = (u, v, w) on cells *)
Definition time_step (dim : Z) (vel normal : list pt) (cfl : R) (mesure volume : list R) (faceid : list (list Z)) (D : pt) : res (option R) :=
  foldM (fun dt i => do lam <- cell_lam dim vel normal mesure volume faceid D i; do vol <- get volume i;
                     ret (min_quot dt (cfl * vol) lam)) (range (zlen faceid)) (Some 1000000%R).

(** pyccel_tools.py:67-71 update_new_value (arrays of one length) *)
Definition update_new_value (w rez dissip src vol : list R) (dtime : R) : res (list (option R)) :=
  mapM (fun i => do x <- get w i; do r <- get rez i; do d <- get dissip i; do s <- get src i; do v <- get vol i;
                 ret (match odiv (r + d) v with Some q => Some (x + dtime * (q + s))%R | None => None end)) (range (zlen w)).
