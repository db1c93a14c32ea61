(** * Spec_halo: vocabulary for C21, C22. *)
From Verif Require Import Py Model_part Model_conn Spec_conn Spec_geom.
From Coq Require Import Reals.
Open Scope Z_scope.

(** halo cells are the rows [global number; node; ...; node] of the halo table; nodes are global numbers *)
Definition halo_nodes (halosext : list (list Z)) (h : Z) : list Z := tl (nthZ [] halosext h).
Definition ishalo (halosext : list (list Z)) (h : Z) : Prop := 0 <= h < zlen halosext.
Definition wf_halos (dim : Z) (halosext : list (list Z)) : Prop :=
  forall h, ishalo halosext h -> zlen (nthZ [] halosext h) = dim + 2 /\ NoDup (halo_nodes halosext h).
(** global numbers of a list of local nodes *)
Definition globals (loctoglob F : list Z) : list Z := map (nthZ 0 loctoglob) F.
(** halo cell h contains the local face F *)
Definition halo_has (loctoglob : list Z) (halosext : list (list Z)) (F : list Z) (h : Z) : Prop :=
  ishalo halosext h /\ incl (globals loctoglob F) (halo_nodes halosext h).

(** g is the mirror image of v in the line / plane through the nodes F: the midpoint lies on it and the
    segment is orthogonal to every edge of F *)
Definition mirror (vertex : list pt) (F : list Z) (v g : pt) : Prop :=
  side vertex F (vscal (1/2) (vadd v g)) = 0%R /\
  forall x y, In x F -> In y F -> vdot (vsub g v) (vsub (at_node vertex x) (at_node vertex y)) = 0%R.
