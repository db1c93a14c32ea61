(** * Spec_run4: the shallow-water scheme on a mesh of triangles, without ranks, tables or numberings (C77-C79).
    A state: depth h, discharge (hu, hv), tracer hc and bottom Z of every cell.  The numerical flux through a facet between two states is [srnh_scheme]; what it is, is the subject of
    C43-C45 and C55-C59. *)
From Coq Require Import Reals.
From Verif Require Import Py Model_part Spec_part Model_label Model_conn Spec_conn Model_geom Spec_geom Model_interp Spec_interp Model_bc Spec_bc Model_domain Spec_domain Spec_lsq Model_parallel Spec_parallel
  Model_run Spec_run Spec_run2 Model_run2.
From Verif Require Model_sw.
Import Model_sw(q5, q_h, q_hu, q_hv, q_hc, q_Z, Build_q5, srnh_scheme, g981).
Open Scope Z_scope.

(** the boundary conditions of h, hc and Z: neumann on all sides *)
Definition free : list (loc * bctype) := map (fun l => (l, BNeumann)) (sides 2).
(** the boundary conditions of hu and hv: each side once, dirichlet (with a value), neumann or nonslip, dirichlet sides first (C37_order_refuted) *)
Definition flow_bc (bc : list (loc * bctype)) (vs : list (loc * bcval)) : Prop :=
  NoDup (map fst bc) /\ (forall l t, In (l, t) bc -> In l (sides 2) /\ (t = BDirichlet \/ t = BNeumann \/ t = BNonslip)) /\ (forall l, In l (sides 2) -> In l (map fst bc)) /\
  dirichlet_first bc /\ forall l, In (l, BDirichlet) bc -> lookup vs l <> None.
(** room for nonslip sides on several ranks: rank r has at least as many neighbour cells (cells of other ranks that share a node with one of its own) as there are ends g of
    boundary facets F of cells c of other ranks at its nodes: these can be assigned to different neighbour cells.  See C35_haloghost_nonslip_refuted; trivial on one rank *)
Definition wall_end (cells : list (list Z)) (epart : list Z) (r : Z) (e : Z * list Z * Z) : Prop :=
  let '(c, F, g) := e in In (c, F) (boundary_facets cells) /\ In g F /\ owner epart c <> r /\ exists c', iscell cells c' /\ owner epart c' = r /\ In g (cell cells c').
Definition neighbour_of (cells : list (list Z)) (epart : list Z) (r c : Z) : Prop :=
  iscell cells c /\ owner epart c <> r /\ exists c', iscell cells c' /\ owner epart c' = r /\ share_node cells c c'.
Definition room (cells : list (list Z)) (epart : list Z) (SIZE : Z) : Prop := forall r, 0 <= r < SIZE -> exists m : Z * list Z * Z -> Z,
  (forall e, wall_end cells epart r e -> neighbour_of cells epart r (m e)) /\ forall e e', wall_end cells epart r e -> wall_end cells epart r e' -> m e = m e' -> e = e'.
(** the conditions for hu and for hv *)
Record flow := { fl_ubc : list (loc * bctype); fl_uvs : list (loc * bcval); fl_vbc : list (loc * bctype); fl_vvs : list (loc * bcval) }.
(** the coefficients: diffusion of the tracer, Manning's coefficient, Coriolis *)
Record friction_etc := { fe_Dx : R; fe_Dy : R; fe_Mann : R; fe_fc : R }.

Section Shallow.
Context (cells : list (list Z)) (nodes : list pt) (labels : list Z) (B : flow) (order : Z) (E : friction_etc).
Notation facets_of c := (facets (cell cells c)).
Notation length n := (sqrt (vdot n n)).

(** *** States beyond the facets *)
Definition flow_value (bc : list (loc * bctype)) (vs : list (loc * bcval)) (F : list Z) (x : R) : R :=
  match find (fun e => side_label (fst e) =? face_label (priority 2) (map (nthZ 0 labels) F)) bc with
  | Some (_, BNonslip) => (- x)%R
  | _ => boundary_value 2 nodes labels bc vs F x
  end.
Definition outside (W : Z -> q5) (c : Z) (F : list Z) : q5 :=
  match beside cells c F with
  | Some d => W d
  | None => {| q_h := q_h (W c); q_hu := flow_value (fl_ubc B) (fl_uvs B) F (q_hu (W c)); q_hv := flow_value (fl_vbc B) (fl_vvs B) F (q_hv (W c)); q_hc := q_hc (W c); q_Z := q_Z (W c) |}
  end.

(** *** Fluxes *)
(** what cell c gives at its facet F: at order 2 depth and tracer with the slopes S and T, both with the limiter P of the tracer *)
Definition at_facet (W : Z -> q5) (S T : Z -> pt) (P : Z -> R) (c : Z) (F : list Z) : q5 :=
  if order =? 2 then
    {| q_h := reconstructed 2 cells nodes 2 (fun c => q_h (W c)) S P c F; q_hu := q_hu (W c); q_hv := q_hv (W c);
       q_hc := reconstructed 2 cells nodes 2 (fun c => q_hc (W c)) T P c F; q_Z := q_Z (W c) |}
  else W c.
Definition flux (W : Z -> q5) (S T : Z -> pt) (P : Z -> R) (c : Z) (F : list Z) : option q5 :=
  srnh_scheme (at_facet W S T P c F) (match beside cells c F with Some d => at_facet W S T P d F | None => outside W c F end) (outward cells nodes c F) (length (outward cells nodes c F)) g981.
(** slopes and limiter of the state, where they are used *)
Definition slopes (W : Z -> q5) (S T : Z -> pt) (P : Z -> R) : Prop := order = 2 -> forall c, iscell cells c ->
  cell_slope 2 cells nodes labels free [] (fun c => q_h (W c)) c (S c) /\ cell_slope 2 cells nodes labels free [] (fun c => q_hc (W c)) c (T c) /\
  limiter 2 cells nodes labels free [] (fun c => q_hc (W c)) (T c) c (P c).
(** slopes of the tracer at the facets, from values N at the nodes *)
Definition tracer_slopes (W : Z -> q5) (N : Z -> R) (G : Z -> list Z -> pt) : Prop :=
  (forall c g, iscell cells c -> In g (cell cells c) -> nodal_value 2 cells nodes labels free [] (fun c => q_hc (W c)) g (N g)) /\
  (forall c F, iscell cells c -> In F (facets_of c) -> facet_slope 2 cells nodes labels free [] (fun c => q_hc (W c)) N c F (G c F)).

(** *** Friction: both discharges are divided by one number *)
Definition friction_factor (dt : R) (w : q5) : R :=
  (1 + g981 * dt * fe_Mann E ^ 2 * sqrt ((q_hu w / q_h w) ^ 2 + (q_hv w / q_h w) ^ 2) / Rpower (q_h w) (4 / 3))%R.
Definition slowed (dt : R) (w : q5) : q5 :=
  {| q_h := q_h w; q_hu := q_hu w / friction_factor dt w; q_hv := q_hv w / friction_factor dt w; q_hc := q_hc w; q_Z := q_Z w |}%R.

(** *** The bottom: every triangle is cut into three at its centre; H: the depths of the three parts *)
Definition part_depths (W : Z -> q5) (c : Z) (H : list Z -> R) : Prop :=
  rsum (map H (facets_of c)) = (3 * q_h (W c))%R /\
  forall k, k = px \/ k = py ->
    rsum (map (fun F => H F * q_h (outside W c F) * k (outward cells nodes c F))%R (facets_of c)) =
    rsum (map (fun F => ((q_h (W c) + q_h (outside W c F)) / 2) ^ 2 * k (outward cells nodes c F))%R (facets_of c)).
(** the bottom of a part: the surface is that of the cell *)
Definition part_bottom (W : Z -> q5) (c : Z) (H : list Z -> R) (F : list Z) : R := (q_Z (W c) + q_h (W c) - H F)%R.
(** the normal of the cut between the parts at F and F' (from the common node to the centre), pointing from the part at F to the part at F' *)
Definition cut_normal (c : Z) (F F' : list Z) : pt :=
  let d := vsub (centre 2 cells nodes c) (at_node nodes (hd 0 (filter (fun k => mem k F') F))) in
  let v := P3 (py d) (- px d) 0 in
  if Rlt_dec 0 (vdot v (vsub (facet_centre nodes F') (facet_centre nodes F))) then v else vscal (-1) v.
(** the force on the water in cell c: over the parts, minus g times half the depth times the bottoms around, each with its normal *)
Definition bottom_force (W : Z -> q5) (c : Z) (H : list Z -> R) (k : pt -> R) : R :=
  (- g981 * rsum (map (fun F => / 2 * H F * (q_Z (outside W c F) * k (outward cells nodes c F) +
     rsum (map (fun F' => part_bottom W c H F' * k (cut_normal c F F')) (filter (fun F' => if list_eq_dec Z.eq_dec F' F then false else true) (facets_of c))))) (facets_of c)))%R.

(** *** One step *)
(** minus what leaves through the facets *)
Definition gain (Phi : Z -> list Z -> q5) (k : q5 -> R) (c : Z) : R := (- rsum (map (fun F => k (Phi c F)) (facets_of c)))%R.
(** the new state of cell c from the state W (after friction), fluxes Phi, tracer slopes G and depths H.  The signs of diffusion and Coriolis are those of the program
    (C43_diffusion_refuted, C43_coriolis_refuted) *)
Definition stepped (dt : R) (W : Z -> q5) (Phi : Z -> list Z -> q5) (G : Z -> list Z -> pt) (H : Z -> list Z -> R) (c : Z) : q5 :=
  let w := W c in let m := measure_of cells nodes c in
  let spread := rsum (map (fun F => diffused cells nodes (P3 (fe_Dx E) (fe_Dy E) 0) (G c F) c F) (facets_of c)) in
  {| q_h := q_h w + dt * (gain Phi q_h c / m);
     q_hu := q_hu w + dt * ((gain Phi q_hu c + bottom_force W c (H c) px) / m + fe_fc E * q_hu w);
     q_hv := q_hv w + dt * ((gain Phi q_hv c + bottom_force W c (H c) py) / m - fe_fc E * q_hv w);
     q_hc := q_hc w + dt * ((gain Phi q_hc c - spread) / m);
     q_Z := q_Z w |}%R.
Definition sw_step (dt : R) (W W' : Z -> q5) : Prop :=
  let W1 := fun c => slowed dt (W c) in
  (forall c, iscell cells c -> (0 < q_h (W c))%R /\ friction_factor dt (W c) <> 0%R) /\
  exists S T P N G Phi H, slopes W1 S T P /\ tracer_slopes W1 N G /\
    (forall c F, iscell cells c -> In F (facets_of c) -> flux W1 S T P c F = Some (Phi c F)) /\
    (forall c, iscell cells c -> part_depths W1 c (H c)) /\
    forall c, iscell cells c -> W' c = stepped dt W1 Phi G H c.

(** *** The time step: the largest one up to 1e6 that the waves allow; all cells must be wet *)
Definition wave_speed (w : q5) (c : Z) : R :=
  rsum (map (fun F => let n := outward cells nodes c F in
    Rabs (q_hu w / q_h w * px n + q_hv w / q_h w * py n) + sqrt (g981 * q_h w) * length n + (fe_Dx E + fe_Dy E) * vdot n n / measure_of cells nodes c)%R (facets_of c)).
Definition allowed (cfl : R) (W : Z -> q5) (dt : R) : Prop := (dt <= 1000000)%R /\ forall c, iscell cells c -> (dt * wave_speed (W c) c <= cfl * measure_of cells nodes c)%R.
Definition longest (cfl : R) (W : Z -> q5) (dt : R) : Prop :=
  (forall c, iscell cells c -> (0 < q_h (W c))%R) /\ allowed cfl W dt /\ forall dt', allowed cfl W dt' -> (dt' <= dt)%R.

(** *** The evolution from the state W at a time, dt being the next time step: n steps, until the time is tfinal or later *)
Inductive evolution (cfl tfinal : R) : nat -> R -> R -> (Z -> q5) -> R -> (Z -> q5) -> Prop :=
| ev_done time dt W W' : (tfinal <= time)%R -> (forall c, iscell cells c -> W' c = W c) -> evolution cfl tfinal O time dt W time W'
| ev_step n time dt W W1 dt1 time' W' : (time < tfinal)%R -> sw_step dt W W1 -> longest cfl W1 dt1 -> evolution cfl tfinal n (time + dt)%R dt1 W1 time' W' ->
    evolution cfl tfinal (Datatypes.S n) time dt W time' W'.
End Shallow.
