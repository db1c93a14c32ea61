(** * Spec_sw: vocabulary for C43-C46 and C55-C60 (shallow water). *)
From Verif Require Import Py Model_part Model_conn Model_geom Spec_geom Model_interp Spec_interp Model_fvm Spec_fvm Model_sw.
From Coq Require Import Reals Permutation String.
Open Scope R_scope.

(** volume flux of a state through a face of normal n (as long as the face) *)
Definition discharge (w : q5) (n : pt) : R := q_hu w * px n + q_hv w * py n.
(** the flux of the shallow-water equations: mass, momentum with the hydrostatic pressure g h^2 / 2, tracer; the bottom does not move *)
Definition physical_flux (g : R) (w : q5) (n : pt) : q5 :=
  {| q_h := discharge w n;
     q_hu := discharge w n * (q_hu w / q_h w) + g * q_h w ^ 2 / 2 * px n;
     q_hv := discharge w n * (q_hv w / q_h w) + g * q_h w ^ 2 / 2 * py n;
     q_hc := discharge w n * (q_hc w / q_h w);
     q_Z := 0 |}.

(** a face of normal n has measure m = |n| > 0; both sides are wet *)
Definition measures (n : pt) (m : R) : Prop := 0 < m /\ m ^ 2 = px n ^ 2 + py n ^ 2.
Definition wet (w : q5) : Prop := 0 < q_h w.
(** Roe's velocity (square-root-of-depth average) across the face, and the celerity of the mean depth *)
Definition roe_mean (l r : q5) (a b : R) : R := (sqrt (q_h l) * (a / q_h l) + sqrt (q_h r) * (b / q_h r)) / (sqrt (q_h l) + sqrt (q_h r)).
Definition roe_speed (l r : q5) (n : pt) (m : R) : R := (roe_mean l r (q_hu l) (q_hu r) * px n + roe_mean l r (q_hv l) (q_hv r) * py n) / m.
Definition celerity (g : R) (l r : q5) : R := sqrt (g * ((q_h l + q_h r) / 2)).
Definition critical (g : R) (l r : q5) (n : pt) (m : R) : Prop := Rabs (roe_speed l r n m) = celerity g l r.

(** the state with the velocity reversed (the ghost of a nonslip wall) or mirrored at the face (slip) *)
Definition reversed (w : q5) : q5 := {| q_h := q_h w; q_hu := - q_hu w; q_hv := - q_hv w; q_hc := q_hc w; q_Z := q_Z w |}.
Definition mirrored (w : q5) (n : pt) (m : R) : q5 :=
  let un := discharge w n / m in
  {| q_h := q_h w; q_hu := q_hu w - 2 * un * (px n / m); q_hv := q_hv w - 2 * un * (py n / m); q_hc := q_hc w; q_Z := q_Z w |}.
(** r is the ghost of a wall: same depth and bottom, opposite discharge through the face *)
Definition wall_ghost (l r : q5) (n : pt) : Prop := q_h r = q_h l /\ q_Z r = q_Z l /\ discharge r n = - discharge l n.
(** a rotation (c, s) of the plane applied to a normal, a state, a flux *)
Definition turn_pt (c s : R) (n : pt) : pt := P3 (c * px n - s * py n) (s * px n + c * py n) (pz n).
Definition turn5 (c s : R) (w : q5) : q5 := {| q_h := q_h w; q_hu := c * q_hu w - s * q_hv w; q_hv := s * q_hu w + c * q_hv w; q_hc := q_hc w; q_Z := q_Z w |}.

(** ** Faces and cells *)
Open Scope Z_scope.
(** the state at the point y reconstructed from a cell of centre x: depth and tracer linearly (order 2), the rest constant *)
Definition sw_side (order : Z) (w : q5) (psi : R) (gh gc x y : pt) : q5 :=
  {| q_h := reconstruct 2 order (q_h w) psi gh x y; q_hu := q_hu w; q_hv := q_hv w; q_hc := reconstruct 2 order (q_hc w) psi gc x y; q_Z := q_Z w |}.
Definition cell_side (order : Z) (X : fvdata) (A : swdata) (c f : Z) : q5 :=
  sw_side order (nthZ q5_zero (sw_c A) c) (nthZ 0%R (sw_psi A) c) (nthZ vzero (sw_gradh A) c) (nthZ vzero (sw_gradc A) c) (nthZ vzero (fv_centerc X) c) (face_center X f).
(** the two sides of face f: its first cell; its second cell, its halo cell, or its ghost *)
Definition face_left (order : Z) (X : fvdata) (A : swdata) (f : Z) : q5 := cell_side order X A (cell0 X f) f.
Definition face_right (order : Z) (X : fvdata) (A : swdata) (f : Z) : q5 :=
  let h := nthZ 0 (fv_halofid X) f in
  if fv_label X f =? 0 then cell_side order X A (cell1 X f) f
  else if fv_label X f =? 10 then sw_side order (nthZ q5_zero (sw_halo A) h) (nthZ 0%R (sw_psih A) h) (nthZ vzero (sw_gradhh A) h) (nthZ vzero (sw_gradch A) h) (nthZ vzero (fv_centerh X) h) (face_center X f)
  else nthZ q5_zero (sw_ghost A) f.
Definition sw_flux (order : Z) (X : fvdata) (mesure : list R) (A : swdata) (f : Z) : option q5 :=
  srnh_scheme (face_left order X A f) (face_right order X A f) (nthZ vzero (fv_normal X) f) (nthZ 0%R mesure f) g981.
(** the faces the scheme visits: periodic ones are not among them *)
Definition sw_faces (L : fvlists) : list Z := ls_inner L ++ ls_halo L ++ ls_boundary L.
Record wf_swdata (X : fvdata) (mesure : list R) (A : swdata) : Prop := {
  wsw_cells : zlen (sw_c A) = zlen (fv_centerc X) /\ zlen (sw_gradh A) = zlen (fv_centerc X) /\ zlen (sw_gradc A) = zlen (fv_centerc X) /\ zlen (sw_psi A) = zlen (fv_centerc X);
  wsw_halos : zlen (sw_halo A) = zlen (fv_centerh X) /\ zlen (sw_gradhh A) = zlen (fv_centerh X) /\ zlen (sw_gradch A) = zlen (fv_centerh X) /\ zlen (sw_psih A) = zlen (fv_centerh X);
  wsw_faces : zlen (sw_ghost A) = zlen (fv_cellid X) /\ zlen mesure = zlen (fv_cellid X) }.
(** the sum over the given faces of what leaves cell c, component by component *)
Definition leaves5 (X : fvdata) (F : Z -> q5) (c : Z) (faces : list Z) : q5 :=
  let s x := rsum (map (leaves X (fun f => x (F f)) c) faces) in
  {| q_h := s q_h; q_hu := s q_hu; q_hv := s q_hv; q_hc := s q_hc; q_Z := s q_Z |}.
Definition sum5 (F : Z -> q5) (l : list Z) : q5 :=
  let s x := rsum (map (fun i => x (F i)) l) in {| q_h := s q_h; q_hu := s q_hu; q_hv := s q_hv; q_hc := s q_hc; q_Z := s q_Z |}.
Definition the5 (o : option q5) : q5 := match o with Some w => w | None => q5_zero end.

(** ** Lake at rest *)
(** the state is wet, without motion, and its surface is at the level H *)
Definition at_rest (H : R) (w : q5) : Prop := (0 < q_h w)%R /\ q_hu w = 0%R /\ q_hv w = 0%R /\ (q_h w + q_Z w)%R = H.
(** all cells, halo cells and the ghosts of boundary faces are at rest *)
Definition lake (H : R) (L : fvlists) (A : swdata) : Prop :=
  (forall w, In w (sw_c A) -> at_rest H w) /\ (forall w, In w (sw_halo A) -> at_rest H w) /\ (forall f, In f (ls_boundary L) -> at_rest H (nthZ q5_zero (sw_ghost A) f)).
(** the tables of triangle c agree with the face tables: three faces, their outward normals (adding up to zero, two of them independent), the neighbours through interior faces *)
Record triangle_tables (X : fvdata) (L : fvlists) (C : swcells) (c : Z) : Prop := {
  tt_faces : zlen (nthZ [] (cl_faceid C) c) = 3 /\ Permutation (nthZ [] (cl_faceid C) c) (filter (fun f => (cell0 X f =? c) || (fv_label X f =? 0) && (cell1 X f =? c)) (sw_faces L));
  tt_distinct : forall f, In f (nthZ [] (cl_faceid C) c) -> fv_label X f = 0 -> cell0 X f <> cell1 X f;
  tt_nodes : 1 < zlen (nthZ [] (cl_nodeid C) c) /\ 0 <= nthZ 0 (nthZ [] (cl_nodeid C) c) 1 < zlen (cl_vertex C);
  tt_rows : zlen (nthZ [] (cl_nf C) c) = 3 /\ zlen (nthZ [] (cl_cellfid C) c) = 3;
  tt_nf : forall j, 0 <= j < 3 -> let f := nthZ 0 (nthZ [] (cl_faceid C) c) j in let n := nthZ vzero (fv_normal X) f in let s := nthZ vzero (nthZ [] (cl_nf C) c) j in
    (cell0 X f = c -> px s = px n /\ py s = py n) /\ (cell0 X f <> c -> px s = (- px n)%R /\ py s = (- py n)%R);
  tt_neighbour : forall j, 0 <= j < 3 -> let f := nthZ 0 (nthZ [] (cl_faceid C) c) j in fv_label X f = 0 ->
    nthZ 0 (nthZ [] (cl_cellfid C) c) j = if cell0 X f =? c then cell1 X f else cell0 X f;
  tt_closed : let s j := nthZ vzero (nthZ [] (cl_nf C) c) j in
    (px (s 0%Z) + px (s 1%Z) + px (s 2%Z) = 0)%R /\ (py (s 0%Z) + py (s 1%Z) + py (s 2%Z) = 0)%R /\ (px (s 0%Z) * py (s 1%Z) - px (s 1%Z) * py (s 0%Z) <> 0)%R }.
Definition wf_swcells (X : fvdata) (L : fvlists) (C : swcells) : Prop :=
  zlen (cl_faceid C) = zlen (fv_centerc X) /\ zlen (cl_nodeid C) = zlen (fv_centerc X) /\ zlen (cl_nf C) = zlen (fv_centerc X) /\ zlen (cl_cellfid C) = zlen (fv_centerc X) /\
  forall c, 0 <= c < zlen (fv_centerc X) -> triangle_tables X L C c.

(** ** Time step *)
(** the sum over the faces of cell i of |velocity . normal| + sqrt(g h) * measure + (Dxx + Dyy) |normal|^2 / volume *)
Definition sw_wave_speed (w : list q5) (normal : list pt) (mesure volume : list R) (faceid : list (list Z)) (Dxx Dyy : R) (i : Z) : R :=
  let q := nthZ q5_zero w i in
  rsum (map (fun f => let n := nthZ vzero normal f in
    (Rabs (q_hu q / q_h q * px n + q_hv q / q_h q * py n) + sqrt (g981 * q_h q) * nthZ 0%R mesure f + (Dxx + Dyy) * (px n ^ 2 + py n ^ 2) / nthZ 0%R volume i)%R) (nthZ [] faceid i)).
Record wf_sw_timestep (w : list q5) (normal : list pt) (mesure volume : list R) (faceid : list (list Z)) : Prop := {
  ws_len : zlen w = zlen faceid /\ zlen volume = zlen faceid /\ zlen mesure = zlen normal;
  ws_cell : forall i, 0 <= i < zlen faceid -> (0 < nthZ 0%R volume i)%R /\ wet (nthZ q5_zero w i);
  ws_row : forall i, 0 <= i < zlen faceid -> zlen (nthZ [] faceid i) = 3 /\ forall f, In f (nthZ [] faceid i) -> 0 <= f < zlen normal /\ (0 < nthZ 0%R mesure f)%R }.

(** the model was constructed with all the terms whose arrays update_solution uses (the default, or a list containing source, dissipation and coriolis) *)
Definition all_terms (M : swmodel) : Prop := forall t, In t ["convective"; "dissipation"; "source"; "coriolis"]%string -> In t (co_terms (sm_coef M)).
(** the values read by the fluxes in update_solution: those after friction *)
Definition after_friction (M : swmodel) (refresh : list q5 -> swdata) (w : list q5) : swdata :=
  match all_some (term_friction_SW w g981 (co_Mann (sm_coef M)) (sm_dt M)) with Some w1 => refresh w1 | None => refresh w end.
