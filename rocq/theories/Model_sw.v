(** * Model_sw: the shallow-water model.
    Models manapy/models/SWModel/tools.py:3-551 and ShallowWaterModel, manapy/models/SWModel/core.py:18-158.  Floats are reals.
    The five arrays of a quantity (h, hu, hv, hc, Z) have one length and are modelled as one list of 5-tuples. *)
From Coq Require Import String Ratan Rpower Rtrigo1.
From Verif Require Import Py Model_part Model_conn Model_geom Model_interp Model_fvm.
Open Scope Z_scope.

Record q5 := { q_h : R; q_hu : R; q_hv : R; q_hc : R; q_Z : R }.
Definition q5_zero : q5 := {| q_h := 0; q_hu := 0; q_hv := 0; q_hc := 0; q_Z := 0 |}.
Definition q5_add (a b : q5) : q5 := {| q_h := q_h a + q_h b; q_hu := q_hu a + q_hu b; q_hv := q_hv a + q_hv b; q_hc := q_hc a + q_hc b; q_Z := q_Z a + q_Z b |}.
Definition q5_opp (a : q5) : q5 := {| q_h := - q_h a; q_hu := - q_hu a; q_hv := - q_hv a; q_hc := - q_hc a; q_Z := - q_Z a |}.
(** [None]: not a number *)
Definition oadd5 (a b : option q5) : option q5 := match a, b with Some x, Some y => Some (q5_add x y) | _, _ => None end.
Definition oopp5 (a : option q5) : option q5 := match a with Some x => Some (q5_opp x) | None => None end.

(** all denominators differ from 0, all arguments of sqrt are >= 0 *)
Definition nonzero (l : list R) : bool := forallb (fun x => if Req_EM_T x 0 then false else true) l.
Definition nonneg (l : list R) : bool := forallb (fun x => if Rle_dec 0 x then true else false) l.

(** tools.py:271-294: the sign of an eigenvalue, 0 below epsilon *)
Definition sgn (lambda : R) : R := if Rlt_dec (Rabs lambda) (1 / 10000000000) then 0%R else (lambda / Rabs lambda)%R.

(** tools.py:239-248: the eigenvalues from uroe, hroe, d *)
Definition sw_Q (grav hroe d uroe : R) : R := (- (uroe ^ 2 + 3 * grav * (hroe + d)) / 9)%R.
Definition sw_R (grav hroe d uroe : R) : R := (uroe * (9 * grav * (2 * hroe - d) - 2 * uroe ^ 2) / 54)%R.
Definition sw_theta (Q Rr : R) : R := acos (Rr / sqrt (- Q ^ 3)).
Definition sw_lambda (Q theta uroe : R) (k : R) : R := (2 * sqrt (- Q) * cos ((theta + k * PI) / 3) + (2 / 3) * uroe)%R.

(** tools.py:296-336, with what it uses of 237-294: the product of rmat and w_dif *)
Section Rmat.
Context (As xi grav uroe vroe croe hroe lambda1 lambda2 lambda3 : R).
Let sound := sqrt (grav * hroe).
Let alpha1 := (lambda1 - uroe)%R.
Let alpha2 := (lambda2 - uroe)%R.
Let alpha3 := (lambda3 - uroe)%R.
Let beta := (2 * As * xi * vroe / hroe)%R.
Let gamma1 := (sound ^ 2 - uroe ^ 2 + lambda2 * lambda3 - beta * alpha2 * alpha3 * vroe)%R.
Let gamma2 := (sound ^ 2 - uroe ^ 2 + lambda1 * lambda3 - beta * alpha1 * alpha3 * vroe)%R.
Let gamma3 := (sound ^ 2 - uroe ^ 2 + lambda1 * lambda2 - beta * alpha1 * alpha2 * vroe)%R.
Definition sw_sigma1 : R := (- alpha1 * alpha2 + alpha2 * alpha3 - alpha1 * alpha3 + alpha1 ^ 2)%R.
Definition sw_sigma2 : R := (alpha1 * alpha2 + alpha2 * alpha3 - alpha1 * alpha3 - alpha2 ^ 2)%R.
Definition sw_sigma3 : R := (alpha1 * alpha2 - alpha2 * alpha3 - alpha1 * alpha3 + alpha3 ^ 2)%R.
Let sigma1 := sw_sigma1.
Let sigma2 := sw_sigma2.
Let sigma3 := sw_sigma3.
Let sign1 := sgn lambda1.
Let sign2 := sgn lambda2.
Let sign3 := sgn lambda3.
Let sign4 := sgn uroe.
Let sign5 := sgn uroe.
(** row r of rmat: the entries for a factor (k1, k2, k3) of the three eigenvectors, plus what differs per row *)
Definition rmat : list (list R) :=
  [ [ sign1 * (gamma1 / sigma1) - sign2 * (gamma2 / sigma2) + sign3 * (gamma3 / sigma3) + sign5 * (beta * vroe);
      - sign1 * (alpha2 + alpha3) / sigma1 + sign2 * (alpha1 + alpha3) / sigma2 - sign3 * (alpha1 + alpha2) / sigma3;
      sign1 * beta * alpha2 * alpha3 / sigma1 - sign2 * beta * alpha1 * alpha3 / sigma2 + sign3 * beta * alpha1 * alpha2 / sigma3 - sign5 * beta;
      0;
      sign1 * sound ^ 2 / sigma1 - sign2 * sound ^ 2 / sigma2 + sign3 * sound ^ 2 / sigma3 ];
    [ lambda1 * sign1 * (gamma1 / sigma1) - lambda2 * sign2 * (gamma2 / sigma2) + lambda3 * sign3 * (gamma3 / sigma3) + sign5 * (beta * uroe * vroe);
      - lambda1 * sign1 * (alpha2 + alpha3) / sigma1 + lambda2 * sign2 * (alpha1 + alpha3) / sigma2 - lambda3 * sign3 * (alpha1 + alpha2) / sigma3;
      lambda1 * sign1 * beta * alpha2 * alpha3 / sigma1 - lambda2 * sign2 * beta * alpha1 * alpha3 / sigma2 + lambda3 * sign3 * beta * alpha1 * alpha2 / sigma3 - sign5 * beta * uroe;
      0;
      lambda1 * sign1 * sound ^ 2 / sigma1 - lambda2 * sign2 * sound ^ 2 / sigma2 + lambda3 * sign3 * sound ^ 2 / sigma3 ];
    [ vroe * sign1 * (gamma1 / sigma1) - vroe * sign2 * (gamma2 / sigma2) + vroe * sign3 * (gamma3 / sigma3) - vroe * sign5 * (1 - beta * vroe);
      - vroe * sign1 * (alpha2 + alpha3) / sigma1 + vroe * sign2 * (alpha1 + alpha3) / sigma2 - vroe * sign3 * (alpha1 + alpha2) / sigma3;
      vroe * sign1 * beta * alpha2 * alpha3 / sigma1 - vroe * sign2 * beta * alpha1 * alpha3 / sigma2 + vroe * sign3 * beta * alpha1 * alpha2 / sigma3 + sign5 * (1 - beta * vroe);
      0;
      vroe * sign1 * sound ^ 2 / sigma1 - vroe * sign2 * sound ^ 2 / sigma2 + vroe * sign3 * sound ^ 2 / sigma3 ];
    [ croe * sign1 * (gamma1 / sigma1) - croe * sign2 * (gamma2 / sigma2) + croe * sign3 * (gamma3 / sigma3) - croe * sign4 + croe * sign5 * beta * vroe;
      - croe * sign1 * (alpha2 + alpha3) / sigma1 + croe * sign2 * (alpha1 + alpha3) / sigma2 - croe * sign3 * (alpha1 + alpha2) / sigma3;
      croe * sign1 * beta * alpha2 * alpha3 / sigma1 - croe * sign2 * beta * alpha1 * alpha3 / sigma2 + croe * sign3 * beta * alpha1 * alpha2 / sigma3 - croe * sign5 * beta;
      sign4;
      croe * sign1 * sound ^ 2 / sigma1 - croe * sign2 * sound ^ 2 / sigma2 + croe * sign3 * sound ^ 2 / sigma3 ];
    [ (alpha1 ^ 2 / sound ^ 2 - 1) * sign1 * (gamma1 / sigma1) - (alpha2 ^ 2 / sound ^ 2 - 1) * sign2 * (gamma2 / sigma2) + (alpha3 ^ 2 / sound ^ 2 - 1) * sign3 * (gamma3 / sigma3) - sign5 * (beta * vroe);
      - (alpha1 ^ 2 / sound ^ 2 - 1) * sign1 * (alpha2 + alpha3) / sigma1 + (alpha2 ^ 2 / sound ^ 2 - 1) * sign2 * (alpha1 + alpha3) / sigma2 - (alpha3 ^ 2 / sound ^ 2 - 1) * sign3 * (alpha1 + alpha2) / sigma3;
      (alpha1 ^ 2 / sound ^ 2 - 1) * sign1 * beta * alpha2 * alpha3 / sigma1 - (alpha2 ^ 2 / sound ^ 2 - 1) * sign2 * beta * alpha1 * alpha3 / sigma2 + (alpha3 ^ 2 / sound ^ 2 - 1) * sign3 * beta * alpha1 * alpha2 / sigma3 + sign5 * beta;
      0;
      (alpha1 ^ 2 / sound ^ 2 - 1) * sign1 * sound ^ 2 / sigma1 - (alpha2 ^ 2 / sound ^ 2 - 1) * sign2 * sound ^ 2 / sigma2 + (alpha3 ^ 2 / sound ^ 2 - 1) * sign3 * sound ^ 2 / sigma3 ] ]%R.
End Rmat.
(** sum(rmat[r][:]*w_dif[:]) *)
Definition row_dot (row w : list R) : R := fold_left Rplus (map (fun xy => fst xy * snd xy)%R (combine row w)) 0%R.

(** tools.py:178-367.  [None]: some division by zero, square root of a negative number or arccos outside [-1, 1] (the flux is then not a number). *)
Definition srnh_scheme (l r : q5) (normal : pt) (mesure grav : R) : option q5 :=
  let As := 0%R in let p := (4 / 10)%R in let xi := (1 / (1 - p))%R in
  let ninv0 := (-1 * py normal)%R in let ninv1 := px normal in
  let roe a b := ((a / q_h l * sqrt (q_h l) + b / q_h r * sqrt (q_h r)) / (sqrt (q_h l) + sqrt (q_h r)))%R in
  let u_h := roe (q_hu l) (q_hu r) in let v_h := roe (q_hv l) (q_hv r) in let c_h := roe (q_hc l) (q_hc r) in
  let un_h := ((u_h * px normal + v_h * py normal) / mesure)%R in
  let vn_h := ((u_h * ninv0 + v_h * ninv1) / mesure)%R in
  let hroe := ((q_h l + q_h r) / 2)%R in let uroe := un_h in let vroe := vn_h in let croe := c_h in
  let uleft := ((q_hu l * px normal + q_hv l * py normal) / mesure)%R in let vleft := ((q_hu l * ninv0 + q_hv l * ninv1) / mesure)%R in
  let uright := ((q_hu r * px normal + q_hv r * py normal) / mesure)%R in let vright := ((q_hu r * ninv0 + q_hv r * ninv1) / mesure)%R in
  let w_dif := [q_h r - q_h l; uright - uleft; vright - vleft; q_hc r - q_hc l; q_Z r - q_Z l]%R in
  let d := (As * xi * (3 * uroe ^ 2 + vroe ^ 2))%R in
  let sound := sqrt (grav * hroe) in
  let Q := sw_Q grav hroe d uroe in let Rr := sw_R grav hroe d uroe in
  let theta := sw_theta Q Rr in
  let lambda1 := sw_lambda Q theta uroe 0 in let lambda2 := sw_lambda Q theta uroe 2 in let lambda3 := sw_lambda Q theta uroe 4 in
  let M := rmat As xi grav uroe vroe croe hroe lambda1 lambda2 lambda3 in
  let s1 := sw_sigma1 uroe lambda1 lambda2 lambda3 in let s2 := sw_sigma2 uroe lambda1 lambda2 lambda3 in let s3 := sw_sigma3 uroe lambda1 lambda2 lambda3 in
  let row k := row_dot (nthZ [] M k) w_dif in
  let w_lrh := ((q_h l + q_h r) / 2 - row 0%Z / 2)%R in
  let w_lrhu := ((uleft + uright) / 2 - row 1%Z / 2)%R in
  let w_lrhv := ((vleft + vright) / 2 - row 2%Z / 2)%R in
  let w_lrhc := ((q_hc l + q_hc r) / 2 - row 3%Z / 2)%R in
  let unew := ((w_lrhu * px normal + w_lrhv * -1 * py normal) / mesure)%R in
  let vnew := ((w_lrhu * -1 * ninv0 + w_lrhv * ninv1) / mesure)%R in
  let q_s := (px normal * unew + py normal * vnew)%R in
  let arg := (Rr / sqrt (- Q ^ 3))%R in
  if nonneg [q_h l; q_h r; grav * hroe; - Q ^ 3; - Q; 1 - arg; arg + 1]%R &&
     nonzero [q_h l; q_h r; sqrt (q_h l) + sqrt (q_h r); mesure; sqrt (- Q ^ 3); hroe; s1; s2; s3; sound ^ 2; w_lrh; w_lrh ^ 3]%R
  then Some {| q_h := q_s; q_hu := q_s * unew / w_lrh + (1 / 2) * grav * w_lrh * w_lrh * px normal; q_hv := q_s * vnew / w_lrh + (1 / 2) * grav * w_lrh * w_lrh * py normal;
               q_hc := q_s * w_lrhc / w_lrh;
               q_Z := As * xi * px normal * unew * (unew ^ 2 + vnew ^ 2) / w_lrh ^ 3 + As * xi * py normal * vnew * (unew ^ 2 + vnew ^ 2) / w_lrh ^ 3 |}%R
  else None.

(** grav = 9.81 (tools.py:22, 78, 385; core.py:38) *)
Definition g981 : R := (981 / 100)%R.

(** what the scheme reads: cell, ghost and halo values; gradcell(x,y) of h and of hc and their halo values; psi and psihalo of hc *)
Record swdata := { sw_c : list q5; sw_ghost : list q5; sw_halo : list q5; sw_gradh : list pt; sw_gradhh : list pt; sw_gradc : list pt; sw_gradch : list pt; sw_psi : list R; sw_psih : list R }.
(** tools.py:420-424: h and hc (only) are reconstructed at the face *)
Definition sw_reconstruct (order : Z) (w : q5) (psi : R) (gh gc r : pt) : q5 :=
  {| q_h := q_h w + (IZR order - 1) * psi * (px gh * px r + py gh * py r); q_hu := q_hu w; q_hv := q_hv w;
     q_hc := q_hc w + (IZR order - 1) * psi * (px gc * px r + py gc * py r); q_Z := q_Z w |}%R.
Definition add5_at (a : list (option q5)) (i : Z) (v : option q5) : res (list (option q5)) := do x <- get a i; set a i (oadd5 x v).
(** one side: a local cell *)
Definition sw_cell_side (order : Z) (X : fvdata) (A : swdata) (xf : pt) (c : Z) : res q5 :=
  do w <- get (sw_c A) c; do x <- get (fv_centerc X) c; do gh <- get (sw_gradh A) c; do gc <- get (sw_gradc A) c; do psi <- get (sw_psi A) c;
  ret (sw_reconstruct order w psi gh gc (disp 2 xf x)).
(** tools.py:390-438 *)
Definition sw_inner (order : Z) (X : fvdata) (mesure : list R) (A : swdata) (rez : list (option q5)) (i : Z) : res (list (option q5)) :=
  do c0 <- get2 (fv_cellid X) i 0; do c1 <- get2 (fv_cellid X) i 1; do n <- get (fv_normal X) i; do m <- get mesure i; do xf <- get (fv_centerf X) i;
  do l <- sw_cell_side order X A xf c0; do r <- sw_cell_side order X A xf c1;
  let flux := srnh_scheme l r n m g981 in
  do rez <- add5_at rez c0 (oopp5 flux); add5_at rez c1 flux.
(** tools.py:440-482 *)
Definition sw_halo_face (order : Z) (X : fvdata) (mesure : list R) (A : swdata) (rez : list (option q5)) (i : Z) : res (list (option q5)) :=
  do c0 <- get2 (fv_cellid X) i 0; do h <- get (fv_halofid X) i; do n <- get (fv_normal X) i; do m <- get mesure i; do xf <- get (fv_centerf X) i;
  do l <- sw_cell_side order X A xf c0;
  do w <- get (sw_halo A) h; do x <- get (fv_centerh X) h; do gh <- get (sw_gradhh A) h; do gc <- get (sw_gradch A) h; do psi <- get (sw_psih A) h;
  let r := sw_reconstruct order w psi gh gc (disp 2 xf x) in
  add5_at rez c0 (oopp5 (srnh_scheme l r n m g981)).
(** tools.py:484-523; centerg[i] is read for r_r, which is not used *)
Definition sw_boundary (order : Z) (X : fvdata) (mesure : list R) (A : swdata) (rez : list (option q5)) (i : Z) : res (list (option q5)) :=
  do c0 <- get2 (fv_cellid X) i 0; do n <- get (fv_normal X) i; do m <- get mesure i; do xf <- get (fv_centerf X) i;
  do l <- sw_cell_side order X A xf c0; do r <- get (sw_ghost A) i;
  add5_at rez c0 (oopp5 (srnh_scheme l r n m g981)).
(** tools.py:370-523 explicitscheme_convective_SW; ls_periodic is not used *)
Definition convective_SW (order : Z) (X : fvdata) (mesure : list R) (L : fvlists) (A : swdata) (nbelements : Z) : res (list (option q5)) :=
  do rez <- foldM (sw_inner order X mesure A) (ls_inner L) (zeros_like (Some q5_zero) nbelements);
  do rez <- foldM (sw_halo_face order X mesure A) (ls_halo L) rez;
  foldM (sw_boundary order X mesure A) (ls_boundary L) rez.

(** cells.nodeid, faceid, cellfid, nf, center; nodes.vertex *)
Record swcells := { cl_nodeid : list (list Z); cl_faceid : list (list Z); cl_cellfid : list (list Z); cl_nf : list (list pt); cl_vertex : list pt }.
(** tools.py:106-127: depth and bottom beyond face j of cell i *)
Definition beyond_face (X : fvdata) (C : swcells) (A : swdata) (i j : Z) : res (R * R) :=
  do f <- get2 (cl_faceid C) i j; do nm <- get (fv_name X) f;
  do w <- (if nm =? 10 then do h <- get (fv_halofid X) f; get (sw_halo A) h
           else if nm =? 0 then do c <- get2 (cl_cellfid C) i j; get (sw_c A) c
           else get (sw_ghost A) f);
  ret (q_h w, q_Z w).
(** tools.py:129-173 with the values of the three faces collected: (h_p1, z_p1, ss[j]) for j = 0, 1, 2 *)
Definition source_cell (w : q5) (G b : pt) (f0 f1 f2 : R * R * pt) : option (R * R) :=
  let '(hp0, zv0, ss0) := f0 in let '(hp1, zv1, ss1) := f1 in let '(hp2, zv2, ss2) := f2 in
  let h_1p := q_h w in let z_1p := q_Z w in
  let mata0 := (hp0 * px ss0)%R in let mata1 := (hp1 * px ss1)%R in let mata2 := (hp2 * px ss2)%R in
  let matb0 := (hp0 * py ss0)%R in let matb1 := (hp1 * py ss1)%R in let matb2 := (hp2 * py ss2)%R in
  let sq hp := (5 / 10 * (h_1p + hp) * (5 / 10) * (h_1p + hp))%R in
  let c_1 := (0 + sq hp0 * px ss0 + sq hp1 * px ss1 + sq hp2 * px ss2)%R in
  let c_2 := (0 + sq hp0 * py ss0 + sq hp1 * py ss1 + sq hp2 * py ss2)%R in
  let c_3 := (3 * h_1p)%R in
  let delta := ((mata1 * matb2 - mata2 * matb1) - (mata0 * matb2 - matb0 * mata2) + (mata0 * matb1 - matb0 * mata1))%R in
  let deltax := (c_3 * (mata1 * matb2 - mata2 * matb1) - (c_1 * matb2 - c_2 * mata2) + (c_1 * matb1 - c_2 * mata1))%R in
  let deltay := ((c_1 * matb2 - c_2 * mata2) - c_3 * (mata0 * matb2 - matb0 * mata2) + (mata0 * c_2 - matb0 * c_1))%R in
  let deltaz := ((mata1 * c_2 - matb1 * c_1) - (mata0 * c_2 - matb0 * c_1) + c_3 * (mata0 * matb1 - matb0 * mata1))%R in
  match odiv deltax delta, odiv deltay delta, odiv deltaz delta with
  | Some h_1, Some h_2, Some h_3 =>
    let z_1 := (z_1p + h_1p - h_1)%R in let z_2 := (z_1p + h_1p - h_2)%R in let z_3 := (z_1p + h_1p - h_3)%R in
    let ns0x := (py G - py b)%R in let ns0y := (- (px G - px b))%R in
    let ns1x := (ns0x - px ss1)%R in let ns1y := (ns0y - py ss1)%R in
    let ns2x := (ns0x + px ss0)%R in let ns2y := (ns0y + py ss0)%R in
    let s_1 s n0 n2 := (5 / 10 * h_1 * (zv0 * s + z_2 * n0 + z_3 * (-1) * n2))%R in
    let s_2 s n0 n1 := (5 / 10 * h_2 * (zv1 * s + z_1 * (-1) * n0 + z_3 * n1))%R in
    let s_3 s n2 n1 := (5 / 10 * h_3 * (zv2 * s + z_1 * n2 + z_2 * (-1) * n1))%R in
    Some (- g981 * (s_1 (px ss0) ns0x ns2x + s_2 (px ss1) ns0x ns1x + s_3 (px ss2) ns2x ns1x),
          - g981 * (s_1 (py ss0) ns0y ns2y + s_2 (py ss1) ns0y ns1y + s_3 (py ss2) ns2y ns1y))%R
  | _, _, _ => None
  end.
(** tools.py:65-174 term_source_srnh_SW *)
Definition term_source_SW (X : fvdata) (C : swcells) (A : swdata) : res (list (option q5)) :=
  mapM (fun i =>
    do w <- get (sw_c A) i; do G <- get (fv_centerc X) i;
    let face j := do hz <- beyond_face X C A i j; do s <- get2 (cl_nf C) i j; ret (fst hz, snd hz, s) in
    do f0 <- face 0; do f1 <- face 1; do f2 <- face 2;
    do nod <- get2 (cl_nodeid C) i 1; do b <- get (cl_vertex C) nod;
    ret (match source_cell w G b f0 f1 f2 with
         | Some (sx, sy) => Some {| q_h := 0; q_hu := sx; q_hv := sy; q_hc := 0; q_Z := 0 |} | None => None end)) (range (zlen (sw_c A))).

(** tools.py:526-531 term_coriolis_SW; (corio_hu, corio_hv) *)
Definition term_coriolis_SW (w : list q5) (f_c : R) : list (R * R) := map (fun w => (f_c * q_hu w, - f_c * q_hv w)%R) w.
(** tools.py:534-551 term_friction_SW; hfric ** (4/3) is Rpower for a positive base, 0 for 0 (then a division by zero) and not a number otherwise *)
Definition friction_cell (w : q5) (grav eta time : R) : option q5 :=
  if Rlt_dec 0 (q_h w) then
    let ufric := (q_hu w / q_h w)%R in let vfric := (q_hv w / q_h w)%R in
    let A := (1 + grav * time * eta ^ 2 * sqrt (ufric ^ 2 + vfric ^ 2) / Rpower (q_h w) (4 / 3))%R in
    match odiv (q_hu w) A, odiv (q_hv w) A with
    | Some hu, Some hv => Some {| q_h := q_h w; q_hu := hu; q_hv := hv; q_hc := q_hc w; q_Z := q_Z w |}
    | _, _ => None end
  else None.
Definition term_friction_SW (w : list q5) (grav eta time : R) : list (option q5) := map (fun w => friction_cell w grav eta time) w.
(** tools.py:3-15 update_SW, one cell (term_wind_SW, tools.py:553-562, returns nothing and is not called) *)
Definition update_cell (w : q5) (rez src : q5) (dissip : R) (corio wind : R * R) (dtime vol : R) : option q5 :=
  match odiv 1 vol with
  | None => None
  | Some _ => Some {| q_h := q_h w + dtime * (q_h rez + q_h src) / vol;
      q_hu := q_hu w + dtime * ((q_hu rez + q_hu src) / vol + fst corio + fst wind);
      q_hv := q_hv w + dtime * ((q_hv rez + q_hv src) / vol + snd corio + snd wind);
      q_hc := q_hc w + dtime * (q_hc rez + q_hc src - dissip) / vol;
      q_Z := q_Z w + dtime * (q_Z rez + q_Z src) / vol |}%R
  end.
Definition update_SW (w : list q5) (rez src : list (option q5)) (dissip : list R) (corio : list (R * R)) (wind : R * R) (dtime : R) (vol : list R) : res (list (option q5)) :=
  mapM (fun i => do x <- get w i; do r <- get rez i; do s <- get src i; do d <- get dissip i; do c <- get corio i; do v <- get vol i;
    ret (match r, s with Some r, Some s => update_cell x r s d c wind dtime v | _, _ => None end)) (range (zlen w)).

(** tools.py:29-42, the sum lam of cell i; [None]: division by zero or square root of a negative depth *)
Definition sw_lam (w : list q5) (normal : list pt) (mesure volume : list R) (faceid : list (list Z)) (Dxx Dyy : R) (i : Z) : res (option R) :=
  do q <- get w i;
  foldM (fun lam j =>
    do f <- get2 faceid i j; do n <- get normal f; do m <- get mesure f; do vol <- get volume i;
    let velson := sqrt (g981 * q_h q) in
    let u_n := Rabs (q_hu q / q_h q * px n + q_hv q / q_h q * py n) in
    let mes := sqrt (px n * px n + py n * py n) in
    let lam_diff := (Dxx * mes ^ 2 + Dyy * mes ^ 2)%R in
    ret (if nonneg [q_h q] && nonzero [q_h q; m; vol] then oadd lam (Some ((u_n / m + velson) * m + lam_diff / vol)%R) else None))
  (range 3) (Some 0%R).
(** tools.py:18-46 time_step_SW *)
Definition time_step_SW (w : list q5) (cfl : R) (normal : list pt) (mesure volume : list R) (faceid : list (list Z)) (Dxx Dyy : R) : res (option R) :=
  foldM (fun dt i => do lam <- sw_lam w normal mesure volume faceid Dxx Dyy i; do vol <- get volume i; ret (min_quot dt (cfl * vol) lam)) (range (zlen faceid)) (Some 1000000%R).

(** tools.py:49-63 initialisation_SW (dam break) *)
Definition initialisation_SW (center : list pt) : list q5 :=
  map (fun x => {| q_h := if Rlt_dec (px x) (1 / 2) then 5%R else 2%R; q_hu := 0; q_hv := 0; q_hc := 0; q_Z := 0 |}%R) center.

(** the parameters dictionary *)
Definition param (d : list (string * R)) (k : string) : option R := match find (fun kv => String.eqb (fst kv) k) d with Some kv => Some (snd kv) | None => None end.
Definition has_term (t : string) (l : list string) : bool := existsb (String.eqb t) l.
Record swcoef := { co_terms : list string; co_Dx : R; co_Dy : R; co_Mann : R; co_fc : R }.
(** core.py:22-69 ShallowWaterModel.__init__: the terms and the coefficients.  [terms], when given, is the caller's list and is extended in place; it is returned in [co_terms].
    [parameters = None]: the membership tests raise TypeError *)
Definition sw_init (terms : option (list string)) (parameters : option (list (string * R))) : res swcoef :=
  let terms := match terms with None => ["source"; "dissipation"; "coriolis"; "friction"; "convective"]%string | Some t => (t ++ ["convective"]%string)%list end in
  let need k := match parameters with None => Err TypeError | Some d => match param d k with None => Err ValueError | Some x => Ok x end end in
  let key k := match parameters with None => Err TypeError | Some d => match param d k with None => Err KeyError | Some x => Ok x end end in
  do dxy <- (if has_term "dissipation" terms then do dx <- need "Dx"%string; do dy <- need "Dy"%string; ret (dx, dy) else ret (0, 0)%R);
  do mann <- (if has_term "friction" terms then need "Manning"%string else ret 0%R);
  do fc <- (if has_term "coriolis" terms then do _ <- need "CoriolisForce"%string; key "Manning"%string else ret 0%R);
  ret {| co_terms := terms; co_Dx := fst dxy; co_Dy := snd dxy; co_Mann := mann; co_fc := fc |}.

(** core.py:20-21, 71-81: varbs is one dictionary of the class; constructing a model puts its five variables (numbered here) in it, and update_values refreshes what the dictionary holds *)
Definition sw_names : list string := ["h"; "hu"; "hv"; "hc"; "Z"]%string.
Definition put {T} (d : list (string * T)) (k : string) (v : T) : list (string * T) :=
  if existsb (fun kv => String.eqb (fst kv) k) d then map (fun kv => if String.eqb (fst kv) k then (k, v) else kv) d else (d ++ [(k, v)])%list.
(** class dictionary after constructing a model with variables [v "h"], ... *)
Definition construct_varbs {T} (varbs : list (string * T)) (v : string -> T) : list (string * T) := fold_left (fun d k => put d k (v k)) sw_names varbs.
(** the variables whose update_values() runs *)
Definition update_values_of {T} (varbs : list (string * T)) : list T := map snd varbs.

(** everything update_solution reads of the domain and of the model *)
Record swmodel := { sm_X : fvdata; sm_L : fvlists; sm_mesure : list R; sm_vol : list R; sm_cells : swcells; sm_order : Z; sm_coef : swcoef; sm_dt : R }.
Fixpoint all_some {T} (l : list (option T)) : option (list T) :=
  match l with [] => Some [] | x :: l => match x, all_some l with Some x, Some l => Some (x :: l) | _, _ => None end end.
(** core.py:131-158 update_solution: friction, then hu.update_values() and hv.update_values() and (order 2) the cell gradients ([refresh]: any function from the cell values to all
    values read), the fluxes, the face gradient of hc ([facegrad]), source, Coriolis, update with zero wind.
    The arrays convective, dissipation, source, coriolis are attributes that a Variable has only for the terms given (ast/core.py:152-154); all four are read.  [None]: the friction term is not a number in some cell. *)
Definition update_solution_SW (M : swmodel) (refresh : list q5 -> swdata) (facegrad : swdata -> list pt) (w : list q5) : res (option (list (option q5))) :=
  if negb (forallb (fun t => has_term t (co_terms (sm_coef M))) ["convective"; "dissipation"; "source"; "coriolis"]%string) then Err AttributeError else
  match all_some (term_friction_SW w g981 (co_Mann (sm_coef M)) (sm_dt M)) with
  | None => ret None
  | Some w1 =>
    let A := refresh w1 in let n := zlen (sw_c A) in
    do rez <- convective_SW (sm_order M) (sm_X M) (sm_mesure M) (sm_L M) A n;
    do dis <- dissipative (fv_cellid (sm_X M)) (fv_normal (sm_X M)) (facegrad A) (fv_name (sm_X M)) (P3 (co_Dx (sm_coef M)) (co_Dy (sm_coef M)) 0) n;
    do src <- term_source_SW (sm_X M) (sm_cells M) A;
    do new <- update_SW (sw_c A) rez src dis (term_coriolis_SW (sw_c A) (co_fc (sm_coef M))) (0, 0)%R (sm_dt M) (sm_vol M);
    ret (Some new)
  end.
