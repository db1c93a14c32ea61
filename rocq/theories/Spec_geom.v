(** * Spec_geom: vocabulary of elementary geometry for C17-C23. *)
From Verif Require Import Py Model_part Model_conn Spec_conn.
From Coq Require Import Reals.
Open Scope R_scope.

Definition vsub (a b : pt) : pt := P3 (px a - px b) (py a - py b) (pz a - pz b).
Definition vadd (a b : pt) : pt := P3 (px a + px b) (py a + py b) (pz a + pz b).
Definition vscal (k : R) (a : pt) : pt := P3 (k * px a) (k * py a) (k * pz a).
Definition vdot (a b : pt) : R := px a * px b + py a * py b + pz a * pz b.
Definition vzero : pt := P3 0 0 0.
Definition vsum (l : list pt) : pt := fold_right vadd vzero l.
Definition vlen (a : pt) : R := sqrt (vdot a a).

(** the coordinates of node k *)
Definition at_node (vertex : list pt) (k : Z) : pt := nthZ vzero vertex k.
Definition planar (vertex : list pt) : Prop := forall v, In v vertex -> pz v = 0.

(** barycentre of a list of points *)
Definition barycentre (l : list pt) : pt := vscal (/ IZR (zlen l)) (vsum l).
(** twice the signed area of a triangle in the plane: positive when a, b, c turn counter-clockwise *)
Definition turn (a b c : pt) : R := (px b - px a) * (py c - py a) - (py b - py a) * (px c - px a).
(** determinant of three vectors *)
Definition det (u v w : pt) : R :=
  px u * (py v * pz w - pz v * py w) - py u * (px v * pz w - pz v * px w) + pz u * (px v * py w - py v * px w).
(** six times the signed volume of a tetrahedron *)
Definition det4 (a b c d : pt) : R := det (vsub b a) (vsub c a) (vsub d a).
(** area of the triangle a b c in space (Gram determinant) *)
Definition triangle_area (a b c : pt) : R :=
  let u := vsub b a in let v := vsub c a in / 2 * sqrt (vdot u u * vdot v v - vdot u v * vdot u v).

(** a cell given by its node numbers is not flat *)
Definition nonflat (dim : Z) (vertex : list pt) (r : list Z) : Prop :=
  match map (at_node vertex) r with
  | [a; b; c] => dim = 2%Z /\ turn a b c <> 0
  | [a; b; c; d] => dim = 3%Z /\ det4 a b c d <> 0
  | _ => False
  end.
(** on which side of the line / plane through the nodes F the point x lies *)
Definition side (vertex : list pt) (F : list Z) (x : pt) : R :=
  match map (at_node vertex) F with
  | [a; b] => turn a b x
  | [a; b; c] => det4 a b c x
  | _ => 0
  end.
(** the two cells of an interior facet lie on opposite sides of it *)
Definition proper (dim : Z) (vertex : list pt) (cells : list (list Z)) : Prop :=
  forall F a b x y, has_facet dim cells a F -> has_facet dim cells b F -> a <> b ->
    In x (cell cells a) -> ~ In x F -> In y (cell cells b) -> ~ In y F ->
    side vertex F (at_node vertex x) * side vertex F (at_node vertex y) < 0.

(** C15: the label of a boundary face from the labels [ls] of its nodes: the common label if they agree; otherwise,
    when no node is unlabelled (0), the first label of the priority list carried by one of them; otherwise 100 *)
Definition face_label (prio ls : list Z) : Z :=
  match ls with
  | [] => 0%Z
  | v :: t => if forallb (Z.eqb v) t then v
              else if mem 0 ls then 100%Z
              else match find (fun p => mem p ls) prio with Some p => p | None => 100%Z end
  end.
Definition priority (dim : Z) : list Z := if (dim =? 2)%Z then [3; 4; 33; 44]%Z else [5; 6; 3; 4; 55; 66; 33; 44]%Z.

(** length of an edge / area of a triangle given by its nodes *)
Definition facet_measure (vertex : list pt) (F : list Z) : R :=
  match map (at_node vertex) F with [a; b] => vlen (vsub b a) | [a; b; c] => triangle_area a b c | _ => 0 end.
