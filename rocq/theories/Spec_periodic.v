(** * Spec_periodic: what the tables of periodic boundaries are for (C63, C64, C65). *)
From Verif Require Import Py Model_part Model_label Model_conn Model_geom Model_halo Model_periodic Spec_geom Spec_interp.
From Coq Require Import Reals.
Open Scope Z_scope.

(** periodic labels of a direction and the plane they lie on: in (11), bottom (44), back (66) at coordinate 0; out (22), upper (33), front (55)
    at the far end *)
Definition low_label (a : axis) : Z := match a with AX => 11 | AY => 44 | AZ => 66 end.
Definition high_label (a : axis) : Z := match a with AX => 22 | AY => 33 | AZ => 55 end.
Definition axes (dim : Z) : list axis := if dim =? 3 then [AX; AY; AZ] else [AX; AY].

Definition labelled (name : list Z) (l i : Z) : Prop := 0 <= i < zlen name /\ nthZ 0 name i = l.
(** q is the point facing p across a domain of length L: p on the plane 0, q on the plane L, the other coordinates equal *)
Definition across (a : axis) (L : R) (p q : pt) : Prop := coord a p = 0%R /\ q = set_coord a p L.
(** item i on the low side and item j on the high side face each other *)
Definition facing (a : axis) (L : R) (pts : list pt) (name : list Z) (i j : Z) : Prop :=
  labelled name (low_label a) i /\ labelled name (high_label a) j /\ across a L (nthZ vzero pts i) (nthZ vzero pts j).
Definition same_rounded (f32 : R -> R) (p q : pt) : Prop := f32 (px p) = f32 (px q) /\ f32 (py p) = f32 (py q) /\ f32 (pz p) = f32 (pz q).
(** every item of either side has one facing it, and rounding does not make two items of a side equal *)
Record paired (f32 : R -> R) (a : axis) (L : R) (pts : list pt) (name : list Z) : Prop := {
  pr_low : forall i, labelled name (low_label a) i -> exists j, facing a L pts name i j;
  pr_high : forall j, labelled name (high_label a) j -> exists i, facing a L pts name i j;
  pr_distinct : forall l i j, l = low_label a \/ l = high_label a -> labelled name l i -> labelled name l j ->
    same_rounded f32 (nthZ vzero pts i) (nthZ vzero pts j) -> i = j }.
Definition reaches (a : axis) (L : R) (l : list pt) : Prop := (forall p, In p l -> (coord a p <= L)%R) /\ exists p, In p l /\ coord a p = L.

(** the domain is periodic in direction a: it spans [0, L], 0 and L survive the rounding to single precision, faces and nodes are paired *)
Record periodic_axis (f32 : R -> R) (I : pinput) (name nodename : list Z) (a : axis) (L : R) : Prop := {
  pa_vertex : reaches a L (pi_vertex I); pa_face : reaches a L (pi_fcenter I); pa_zero : f32 0%R = 0%R; pa_exact : f32 L = L;
  pa_faces : paired f32 a L (pi_fcenter I) name; pa_nodes : paired f32 a L (pi_vertex I) nodename }.
Definition absent (a : axis) (name : list Z) : Prop := ~ In (low_label a) name /\ ~ In (high_label a) name.
Definition not_periodic (name nodename : list Z) (a : axis) : Prop := absent a name /\ absent a nodename.

(** the tables handed over by the rest of the constructor *)
Record wf_periodic (nbcells nbnodes : Z) (I : pinput) (cellid : list (list Z)) (ghost : list (list nodeghost)) (name nodename : list Z) : Prop := {
  wp_faces : 0 < zlen name; wp_fcenter : zlen (pi_fcenter I) = zlen name; wp_cellid : zlen cellid = zlen name;
  wp_cells : 0 <= nbcells; wp_nodes : 0 < nbnodes; wp_vertex : zlen (pi_vertex I) = nbnodes; wp_nodecell : zlen (pi_nodecell I) = nbnodes;
  wp_nodename : zlen nodename = nbnodes; wp_ghost : zlen ghost = nbnodes; wp_cellnid : zlen (pi_cellnid I) = nbcells;
  wp_rows : forall f, 0 <= f < zlen name -> zlen (nthZ [] cellid f) = 2 /\ 0 <= nthZ 0 (nthZ [] cellid f) 0 < nbcells;
  wp_cellrow : forall c, 0 <= c < nbcells -> row_ok nbcells (nthZ [] (pi_cellnid I) c);
  wp_noderow : forall i, 0 <= i < nbnodes -> row_ok nbcells (nthZ [] (pi_nodecell I) i) /\ 0 < row_count (nthZ [] (pi_nodecell I) i);
  wp_width : forall i j, 0 <= i < nbnodes -> 0 <= j < nbnodes -> zlen (nthZ [] (pi_nodecell I) i) = zlen (nthZ [] (pi_nodecell I) j) }.

Definition cell_of (cellid : list (list Z)) (f : Z) : Z := nthZ 0 (nthZ [] cellid f) 0.
(** c shares a node with cell b and is not b (cells._cellnid, C10) *)
Definition beside (I : pinput) (b c : Z) : Prop := In c (counted (nthZ [] (pi_cellnid I) b)).
