(** * Spec_fvm: vocabulary for C29-C34. *)
From Verif Require Import Py Model_part Model_conn Spec_conn Model_geom Spec_geom Model_interp Spec_interp Model_fvm.
From Coq Require Import Reals Permutation.
Open Scope Z_scope.

Section Fvm.
Context (dim order : Z) (X : fvdata) (A : advected) (vel : list pt).
Definition fv_label (f : Z) : Z := nthZ 0 (fv_name X) f.
Definition cell0 (f : Z) : Z := nthZ 0 (nthZ [] (fv_cellid X) f) 0.
Definition cell1 (f : Z) : Z := nthZ 0 (nthZ [] (fv_cellid X) f) 1.
(** in 2D only the x and y components of a gradient count *)
Definition in_space (g : pt) : pt := if dim =? 2 then P3 (px g) (py g) 0 else g.
(** the value at the point y of the limited linear reconstruction with value w and gradient g at x; [order] = 1 ignores the gradient *)
Definition reconstruct (w psi : R) (g x y : pt) : R := (w + (IZR order - 1) * psi * vdot (in_space g) (vsub y x))%R.
Definition face_center (f : Z) : pt := nthZ vzero (fv_centerf X) f.
(** the two states at face f: from the left cell; and, by the label of the face, from the right cell, from the image of the
    periodic neighbour, from the halo cell, or the ghost value itself *)
Definition left_state (f : Z) : R :=
  let c := cell0 f in reconstruct (nthZ 0%R (ad_c A) c) (nthZ 0%R (ad_psi A) c) (nthZ vzero (ad_grad A) c) (nthZ vzero (fv_centerc X) c) (face_center f).
Definition right_state (f : Z) : R :=
  let c := cell1 f in let h := nthZ 0 (fv_halofid X) f in let l := fv_label f in
  if l =? 0 then reconstruct (nthZ 0%R (ad_c A) c) (nthZ 0%R (ad_psi A) c) (nthZ vzero (ad_grad A) c) (nthZ vzero (fv_centerc X) c) (face_center f)
  else if is_periodic dim l then
    reconstruct (nthZ 0%R (ad_c A) c) (nthZ 0%R (ad_psi A) c) (nthZ vzero (ad_grad A) c) (image l (nthZ vzero (fv_centerc X) c) (nthZ vzero (fv_shift X) c)) (face_center f)
  else if l =? 10 then reconstruct (nthZ 0%R (ad_halo A) h) (nthZ 0%R (ad_psih A) h) (nthZ vzero (ad_gradh A) h) (nthZ vzero (fv_centerh X) h) (face_center f)
  else nthZ 0%R (ad_ghost A) f.
(** volume flux through face f in the direction of its normal, and the flux of the variable: the upstream state times that *)
Definition throughput (f : Z) : R := vdot (nthZ vzero vel f) (nthZ vzero (fv_normal X) f).
Definition fv_flux (f : Z) : R := (throughput f * if Rle_dec 0 (throughput f) then left_state f else right_state f)%R.
(** what leaves cell c through face f, for a quantity x crossing f from its first to its second cell; only interior faces have a second cell *)
Definition leaves (x : Z -> R) (c f : Z) : R :=
  ((if cell0 f =? c then x f else 0) - (if (fv_label f =? 0) && (cell1 f =? c)%Z then x f else 0))%R.
End Fvm.

(** all faces treated, in the order of the loops *)
Definition all_faces (L : fvlists) : list Z := ls_inner L ++ ls_periodic L ++ ls_halo L ++ ls_boundary L.
Definition outer_faces (L : fvlists) : list Z := ls_periodic L ++ ls_halo L ++ ls_boundary L.

(** tables: one row per face, existing cells and halos *)
Record wf_fvdata (dim : Z) (X : fvdata) : Prop := {
  wfv_dim : dim = 2 \/ dim = 3;
  wfv_len : zlen (fv_name X) = zlen (fv_cellid X) /\ zlen (fv_normal X) = zlen (fv_cellid X) /\ zlen (fv_centerf X) = zlen (fv_cellid X) /\
            zlen (fv_halofid X) = zlen (fv_cellid X) /\ zlen (fv_shift X) = zlen (fv_centerc X);
  wfv_face : forall f, 0 <= f < zlen (fv_cellid X) ->
    zlen (nthZ [] (fv_cellid X) f) = 2 /\ 0 <= cell0 X f < zlen (fv_centerc X) /\
    (fv_label X f = 0 \/ is_periodic dim (fv_label X f) = true -> 0 <= cell1 X f < zlen (fv_centerc X)) /\
    (fv_label X f = 10 -> 0 <= nthZ 0 (fv_halofid X) f < zlen (fv_centerh X)) }.
(** the lists agree with the labels *)
Definition wf_lists (dim : Z) (X : fvdata) (L : fvlists) : Prop :=
  let face f := 0 <= f < zlen (fv_cellid X) in
  (forall f, In f (ls_inner L) -> face f /\ fv_label X f = 0) /\ (forall f, In f (ls_periodic L) -> face f /\ is_periodic dim (fv_label X f) = true) /\
  (forall f, In f (ls_halo L) -> face f /\ fv_label X f = 10) /\ (forall f, In f (ls_boundary L) -> face f /\ 1 <= fv_label X f <= 2 * dim).
Definition wf_advected (X : fvdata) (A : advected) (vel : list pt) : Prop :=
  zlen (ad_c A) = zlen (fv_centerc X) /\ zlen (ad_grad A) = zlen (fv_centerc X) /\ zlen (ad_psi A) = zlen (fv_centerc X) /\
  zlen (ad_halo A) = zlen (fv_centerh X) /\ zlen (ad_gradh A) = zlen (fv_centerh X) /\ zlen (ad_psih A) = zlen (fv_centerh X) /\
  zlen (ad_ghost A) = zlen (fv_cellid X) /\ zlen vel = zlen (fv_cellid X).

(** face f' is the periodic partner of face f: same two cells the other way round, opposite normals, the two face centres
    are images of each other, and the same velocity *)
Definition partners (dim : Z) (X : fvdata) (vel : list pt) (f f' : Z) : Prop :=
  cell0 X f' = cell1 X f /\ cell1 X f' = cell0 X f /\
  (forall w, vdot w (nthZ vzero (fv_normal X) f') = (- vdot w (nthZ vzero (fv_normal X) f))%R) /\ nthZ vzero vel f' = nthZ vzero vel f /\
  (forall x, vsub (face_center X f) (image (fv_label X f) x (nthZ vzero (fv_shift X) (cell1 X f))) = vsub (face_center X f') x) /\
  (forall x, vsub (face_center X f') (image (fv_label X f') x (nthZ vzero (fv_shift X) (cell1 X f'))) = vsub (face_center X f) x).

(** C33: sum over the faces of cell i of |velocity . normal| plus the diffusive speed D |normal|^2 / volume *)
Definition wave_speed (vel normal : list pt) (volume : list R) (faceid : list (list Z)) (D : pt) (i : Z) : R :=
  rsum (map (fun f => let n := nthZ vzero normal f in
    (Rabs (vdot (nthZ vzero vel i) n) + (px D + py D + pz D) * vdot n n / nthZ 0%R volume i)%R) (nthZ [] faceid i)).

(** C30: the diffusive flux through face f, from its second to its first cell: D (diagonal) applied to the face gradient, along the normal *)
Definition diffusion (X : fvdata) (grads : list pt) (D : pt) (f : Z) : R :=
  let g := nthZ vzero grads f in vdot (P3 (px D * px g) (py D * py g) (pz D * pz g)) (nthZ vzero (fv_normal X) f).

(** C32: the outward normals of the faces of cell c add up to zero *)
Definition closed_cell (X : fvdata) (L : fvlists) (c : Z) : Prop :=
  vsum (map (fun f => P3 (leaves X (fun f => px (nthZ vzero (fv_normal X) f)) c f) (leaves X (fun f => py (nthZ vzero (fv_normal X) f)) c f)
                         (leaves X (fun f => pz (nthZ vzero (fv_normal X) f)) c f)) (all_faces L)) = vzero.

(** C34: the value on the other side of face f of cell c *)
Definition beyond (dim : Z) (X : fvdata) (A : advected) (c f : Z) : R :=
  let l := fv_label X f in
  if cell0 X f =? c then (if (l =? 0) || is_periodic dim l then nthZ 0%R (ad_c A) (cell1 X f) else if l =? 10 then nthZ 0%R (ad_halo A) (nthZ 0 (fv_halofid X) f) else nthZ 0%R (ad_ghost A) f)
  else nthZ 0%R (ad_c A) (cell0 X f).
Definition touches_face (X : fvdata) (c f : Z) : Prop := cell0 X f = c \/ fv_label X f = 0 /\ cell1 X f = c.
(** volume flux entering cell c *)
Definition inflow (X : fvdata) (L : fvlists) (vel : list pt) (c : Z) : R := rsum (map (fun f => Rmax 0 (- leaves X (throughput X vel) c f)) (all_faces L)).
(** the faceid row of each cell lists its faces; no face has one cell on both sides *)
Definition lists_faces (X : fvdata) (L : fvlists) (faceid : list (list Z)) : Prop :=
  zlen faceid = zlen (fv_centerc X) /\
  (forall f, In f (all_faces L) -> fv_label X f = 0 -> cell0 X f <> cell1 X f) /\
  forall c, 0 <= c < zlen faceid -> Permutation (nthZ [] faceid c) (filter (fun f => (cell0 X f =? c) || (fv_label X f =? 0) && (cell1 X f =? c)) (all_faces L)).

(** C32: the variable is k everywhere, and (except at order 1, which does not read it) its gradient is zero *)
Definition constant_field (L : fvlists) (k : R) (order : Z) (A : advected) : Prop :=
  (forall x, In x (ad_c A) -> x = k) /\ (forall x, In x (ad_halo A) -> x = k) /\ (forall f, In f (ls_boundary L) -> nthZ 0%R (ad_ghost A) f = k) /\
  (order = 1 \/ (forall g, In g (ad_grad A) -> g = vzero) /\ (forall g, In g (ad_gradh A) -> g = vzero)).

(** C33: dim+1 existing faces of positive measure per cell, positive volumes *)
Record wf_timestep (dim : Z) (vel normal : list pt) (mesure volume : list R) (faceid : list (list Z)) : Prop := {
  wt_dim : dim = 2 \/ dim = 3;
  wt_len : zlen vel = zlen faceid /\ zlen volume = zlen faceid /\ zlen mesure = zlen normal;
  wt_vol : forall i, 0 <= i < zlen faceid -> (0 < nthZ 0%R volume i)%R;
  wt_row : forall i, 0 <= i < zlen faceid -> zlen (nthZ [] faceid i) = dim + 1 /\ forall f, In f (nthZ [] faceid i) -> 0 <= f < zlen normal /\ (0 < nthZ 0%R mesure f)%R }.

(** C29: the face f of one rank and f' of another are the two sides of one cut face: same place and velocity, opposite normals, and
    each side's own cell is the other side's halo cell (value, limiter, gradient, centre) *)
Definition own_side (X : fvdata) (A : advected) (f : Z) : R * R * pt * pt :=
  let c := cell0 X f in (nthZ 0%R (ad_c A) c, nthZ 0%R (ad_psi A) c, nthZ vzero (ad_grad A) c, nthZ vzero (fv_centerc X) c).
Definition halo_side (X : fvdata) (A : advected) (f : Z) : R * R * pt * pt :=
  let h := nthZ 0 (fv_halofid X) f in (nthZ 0%R (ad_halo A) h, nthZ 0%R (ad_psih A) h, nthZ vzero (ad_gradh A) h, nthZ vzero (fv_centerh X) h).
Definition two_sides (X : fvdata) (A : advected) (vel : list pt) (f : Z) (X' : fvdata) (A' : advected) (vel' : list pt) (f' : Z) : Prop :=
  (forall w, vdot w (nthZ vzero (fv_normal X') f') = (- vdot w (nthZ vzero (fv_normal X) f))%R) /\ nthZ vzero vel' f' = nthZ vzero vel f /\
  face_center X' f' = face_center X f /\ own_side X' A' f' = halo_side X A f /\ halo_side X' A' f' = own_side X A f.
