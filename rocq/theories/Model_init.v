(** * Model_init: the initial conditions.
    Models manapy/tools/pyccel_tools.py:3-34 (initialisation_gaussian_2d, initialisation_gaussian_3d), manapy/models/SWModel/tools.py:49-63 (initialisation_SW) and
    manapy/models/StreamerModel/tools.py:13-55 (initialisation_streamer, initialisation_streamer_3d).  The loops write into the arrays they are given, cell by cell.
    Simplifications: floats are reals, numpy's exp is the exponential; the decimal constants are exact. *)
From Coq Require Import Reals.
From Verif Require Import Py Model_part Model_conn Model_geom Model_domain Model_parallel Model_sw Model_run3.
Open Scope Z_scope.

(** the arrays handed to initialisation_gaussian_2d/3d *)
Record fluid := { in_ne : list R; in_u : list R; in_v : list R; in_w : list R; in_P : list R }.
(** pyccel_tools.py:3-17 *)
Definition initialisation_gaussian_2d (a : fluid) (center : list pt) (Pinit : R) : res fluid :=
  let sigma := (5 / 100)%R in
  foldM (fun a i =>
    do c <- get center i;
    let xcent := px c in let ycent := py c in
    do ne <- set (in_ne a) i (5 * exp (-1 * ((xcent - 2/10) ^ 2 + (ycent - 25/100) ^ 2) / sigma ^ 2) + 1)%R;
    do u <- set (in_u a) i 0%R; do v <- set (in_v a) i 0%R; do w <- set (in_w a) i 0%R;
    do P <- set (in_P a) i (Pinit * (5/10 - xcent))%R;
    ret {| in_ne := ne; in_u := u; in_v := v; in_w := w; in_P := P |}) (range (zlen center)) a.
(** pyccel_tools.py:19-34 *)
Definition initialisation_gaussian_3d (a : fluid) (center : list pt) (Pinit : R) : res fluid :=
  let sigma := (5 / 100)%R in
  foldM (fun a i =>
    do c <- get center i;
    let xcent := px c in let ycent := py c in let zcent := pz c in
    do ne <- set (in_ne a) i (5 * exp (-1 * ((xcent - 2/10) ^ 2 + (ycent - 25/100) ^ 2 + (zcent - 45/100) ^ 2) / sigma ^ 2) + 1)%R;
    do u <- set (in_u a) i 0%R; do v <- set (in_v a) i 0%R; do w <- set (in_w a) i 0%R;
    do P <- set (in_P a) i (Pinit * (5/10 - xcent))%R;
    ret {| in_ne := ne; in_u := u; in_v := v; in_w := w; in_P := P |}) (range (zlen center)) a.

(** SWModel/tools.py:49-63; the five arrays *)
Record water := { wa_h : list R; wa_hu : list R; wa_hv : list R; wa_hc : list R; wa_Z : list R }.
Definition initialisation_SW (a : water) (center : list pt) : res water :=
  foldM (fun a i =>
    do c <- get center i;
    let xcent := px c in
    do h <- set (wa_h a) i 2%R; do Zb <- set (wa_Z a) i 0%R;
    do h <- (if Rlt_dec xcent (5/10) then set h i 5%R else ret h);
    do hu <- set (wa_hu a) i 0%R; do hv <- set (wa_hv a) i 0%R; do hc <- set (wa_hc a) i 0%R;
    ret {| wa_h := h; wa_hu := hu; wa_hv := hv; wa_hc := hc; wa_Z := Zb |}) (range (zlen center)) a.
(** the arrays of a rank as the program of Model_run3 takes them *)
Definition state_of_water (a : water) : list q5 := together (wa_h a) (wa_hu a) (wa_hv a) (wa_hc a) (wa_Z a).

(** StreamerModel/tools.py:13-30 and 33-55; the arrays w and Ez are only given to the second *)
Record gas := { ga_ne : list R; ga_ni : list R; ga_u : list R; ga_v : list R; ga_w : list R; ga_Ex : list R; ga_Ey : list R; ga_Ez : list R; ga_P : list R }.
Definition initialisation_streamer (a : gas) (center : list pt) (Pinit : R) : res gas :=
  let sigma := (1 / 100)%R in
  foldM (fun a i =>
    do c <- get center i;
    let xcent := px c in let ycent := py c in
    do ne <- set (ga_ne a) i (10 ^ 16 * exp (-1 * ((xcent - 2/10) ^ 2 + (ycent - 25/100) ^ 2) / sigma ^ 2) + 10 ^ 9)%R;
    do ni <- set (ga_ni a) i (10 ^ 16 * exp (-1 * ((xcent - 2/10) ^ 2 + (ycent - 25/100) ^ 2) / sigma ^ 2) + 10 ^ 9)%R;
    do u <- set (ga_u a) i 0%R; do v <- set (ga_v a) i 0%R;
    do P <- set (ga_P a) i (Pinit * (1 - xcent))%R;
    do Ex <- set (ga_Ex a) i 0%R; do Ey <- set (ga_Ey a) i 0%R;
    ret {| ga_ne := ne; ga_ni := ni; ga_u := u; ga_v := v; ga_w := ga_w a; ga_Ex := Ex; ga_Ey := Ey; ga_Ez := ga_Ez a; ga_P := P |}) (range (zlen center)) a.
Definition initialisation_streamer_3d (a : gas) (center : list pt) (Pinit : R) : res gas :=
  let sigma := (1 / 100)%R in
  foldM (fun a i =>
    do c <- get center i;
    let xcent := px c in let ycent := py c in let zcent := pz c in
    do ne <- set (ga_ne a) i (10 ^ 16 * exp (-1 * ((xcent - 2/10) ^ 2 + (ycent - 25/100) ^ 2 + (zcent - 25/100) ^ 2) / sigma ^ 2) + 10 ^ 12)%R;
    do ni <- set (ga_ni a) i (10 ^ 16 * exp (-1 * ((xcent - 2/10) ^ 2 + (ycent - 25/100) ^ 2 + (zcent - 25/100) ^ 2) / sigma ^ 2) + 10 ^ 12)%R;
    do u <- set (ga_u a) i 0%R; do v <- set (ga_v a) i 0%R; do w <- set (ga_w a) i 0%R;
    do P <- set (ga_P a) i (Pinit * (5/10 - xcent))%R;
    do Ex <- set (ga_Ex a) i 0%R; do Ey <- set (ga_Ey a) i 0%R; do Ez <- set (ga_Ez a) i 0%R;
    ret {| ga_ne := ne; ga_ni := ni; ga_u := u; ga_v := v; ga_w := w; ga_Ex := Ex; ga_Ey := Ey; ga_Ez := Ez; ga_P := P |}) (range (zlen center)) a.

(** an initialisation called by all the ranks, each with its arrays and its cells.center *)
Definition initialise {A} (f : A -> list pt -> res A) (SIZE : Z) (st : setting) (arrays : list A) : res (list A) :=
  mapM (fun r => do D <- get (se_domains st) r; do a <- get arrays r; f a (dm_center D)) (range SIZE).
