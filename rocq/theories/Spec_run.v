(** * Spec_run: the first-order upwind finite-volume scheme on a mesh, without ranks, tables or numberings (C69). *)
From Coq Require Import Reals.
From Verif Require Import Py Model_part Spec_part Model_label Model_conn Spec_conn Model_geom Spec_geom Model_interp Spec_interp Model_bc Spec_bc Model_domain Spec_domain.
Open Scope Z_scope.

Section Scheme.
Context (dim : Z) (cells : list (list Z)) (nodes : list pt) (labels : list Z).
(** the facets of a cell with nodes r: all its nodes but one, in increasing order *)
Definition facets (r : list Z) : list (list Z) := map (fun k => filter (fun x => negb (x =? k)) (np_sort r)) r.
(** the cell on the other side of the facet F of cell c, if any *)
Definition beside (c : Z) (F : list Z) : option Z := find (fun d => negb (d =? c) && forallb (fun k => mem k (cell cells d)) F) (range (zlen cells)).
(** the area vector of the facet F of cell c that points out of the cell: [outward_of] *)
Definition outward (c : Z) (F : list Z) : pt :=
  let v := area_vector nodes F in
  let x := hd 0 (filter (fun k => negb (mem k F)) (cell cells c)) in
  if Rlt_dec (vdot v (vsub (at_node nodes x) (at_node nodes (hd 0 F)))) 0 then v else vscal (-1) v.
Definition measure_of (c : Z) : R := cell_measure nodes (cell cells c).

(** boundary conditions: each side once, dirichlet (with a value) or neumann, dirichlet sides first (C37_order_refuted) *)
Definition bc_valid (bc : list (loc * bctype)) (vs : list (loc * bcval)) : Prop :=
  NoDup (map fst bc) /\ (forall l t, In (l, t) bc -> In l (sides dim) /\ (t = BDirichlet \/ t = BNeumann)) /\ (forall l, In l (sides dim) -> In l (map fst bc)) /\
  dirichlet_first bc /\ forall l, In (l, BDirichlet) bc -> lookup vs l <> None.
(** the value beyond the boundary facet F of a cell with value x *)
Definition boundary_value (bc : list (loc * bctype)) (vs : list (loc * bcval)) (F : list Z) (x : R) : R :=
  match find (fun e => side_label (fst e) =? face_label (priority dim) (map (nthZ 0 labels) F)) bc with
  | Some (l, BDirichlet) => match lookup vs l with
                            | Some (VFun g) => let y := barycentre (map (at_node nodes) F) in g (px y) (py y) (pz y)
                            | Some (VNum y) => y
                            | _ => 0%R
                            end
  | _ => x
  end.
Definition value_beyond (bc : list (loc * bctype)) (vs : list (loc * bcval)) (X : Z -> R) (c : Z) (F : list Z) : R :=
  match beside c F with Some d => X d | None => boundary_value bc vs F (X c) end.
(** what leaves cell c through its facet F in a unit of time when the field X is carried with the velocity U *)
Definition leaving (bc : list (loc * bctype)) (vs : list (loc * bcval)) (U : pt) (X : Z -> R) (c : Z) (F : list Z) : R :=
  let q := vdot U (outward c F) in (q * if Rle_dec 0 q then X c else value_beyond bc vs X c F)%R.
(** one step of length dt *)
Definition upwind_step (bc : list (loc * bctype)) (vs : list (loc * bcval)) (U : pt) (dt : R) (X : Z -> R) (c : Z) : R :=
  (X c - dt / measure_of c * rsum (map (leaving bc vs U X c) (facets (cell cells c))))%R.
Fixpoint upwind (n : nat) (bc : list (loc * bctype)) (vs : list (loc * bcval)) (U : pt) (dt : R) (X : Z -> R) : Z -> R :=
  match n with O => X | S n => upwind_step bc vs U dt (upwind n bc vs U dt X) end.
(** the CFL condition, and the largest step up to 1e6 that satisfies it *)
Definition speed (U : pt) (c : Z) : R := rsum (map (fun F => Rabs (vdot U (outward c F))) (facets (cell cells c))).
Definition cfl_ok (U : pt) (cfl dt : R) : Prop := (dt <= 1000000)%R /\ forall c, iscell cells c -> (dt * speed U c <= cfl * measure_of c)%R.
Definition largest_step (U : pt) (cfl dt : R) : Prop := cfl_ok U cfl dt /\ forall dt', cfl_ok U cfl dt' -> (dt' <= dt)%R.
(** the dirichlet values lie between lo and hi *)
Definition dirichlet_within (lo hi : R) (bc : list (loc * bctype)) (vs : list (loc * bcval)) : Prop :=
  forall l, In (l, BDirichlet) bc -> match lookup vs l with
                                     | Some (VFun g) => forall x y z, (lo <= g x y z <= hi)%R
                                     | Some (VNum y) => (lo <= y <= hi)%R
                                     | _ => (lo <= 0 <= hi)%R
                                     end.
(** the facets of the boundary of the mesh, each with its cell *)
Definition boundary_facets : list (Z * list Z) :=
  flat_map (fun c => map (pair c) (filter (fun F => match beside c F with None => true | Some _ => false end) (facets (cell cells c)))) (range (zlen cells)).
End Scheme.
