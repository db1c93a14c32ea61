(** * Spec_bc3: the values of the halo ghosts (C35). *)
From Verif Require Import Py Model_part Model_label Model_conn Model_geom Spec_geom Model_interp Model_bc Spec_bc.
Open Scope Z_scope.

(** what the values dictionary prescribes on side l at the point x *)
Definition prescribed_at (values : list (loc * bcval)) (l : loc) (x : pt) : R :=
  match lookup values l with Some (VFun g) => g (px x) (py x) (pz x) | Some (VNum y) => y | _ => 0%R end.
(** the j-th entry of node i in the table of halo ghosts; different entries are different halo ghosts *)
Definition hg_at (D : bcdom) (i j : Z) : gentry := nthZ gpad (nthZ [] (bd_hg D) i) j.
Definition hg_pos (D : bcdom) (i j : Z) : Prop := 0 <= i < bd_nbnodes D /\ 0 <= j < zlen (nthZ [] (bd_hg D) i) /\ g_last (hg_at D i j) <> -1.
Definition hg_distinct (D : bcdom) : Prop := forall i j i' j', hg_pos D i j -> hg_pos D i' j' -> g_last (hg_at D i j) = g_last (hg_at D i' j') -> i = i' /\ j = j'.
(** the point of the boundary face behind the halo ghost (the centre of the face) *)
Definition hg_face (D : bcdom) (i j : Z) : pt := nthZ vzero (nthZ [] (bd_hginfo D) i) j.
(** the values of the halo ghosts after an update in a state where the halo cells hold h: copied from the halo cell behind the face on a neumann side;
    on a dirichlet side the value at the centre of the face prescribed on the dirichlet side carrying the label of the NODE the entry belongs to, 0 if
    that is the label of no dirichlet side *)
Definition haloghosts_updated (D : bcdom) (bc : list (loc * bctype)) (values : list (loc * bcval)) (h g : list R) : Prop :=
  zlen g = bd_sizehg D /\
  forall i j l, In i (bd_halonodes D) -> hg_pos D i j -> g_name (hg_at D i j) = side_label l ->
    (In (l, BNeumann) bc -> nthZ 0%R g (g_last (hg_at D i j)) = nthZ 0%R h (g_cell (hg_at D i j))) /\
    (In (l, BDirichlet) bc ->
       (forall l', In (l', BDirichlet) bc -> nthZ 0 (bd_oldname D) i = side_label l' -> nthZ 0%R g (g_last (hg_at D i j)) = prescribed_at values l' (hg_face D i j)) /\
       ((forall l', In (l', BDirichlet) bc -> nthZ 0 (bd_oldname D) i <> side_label l') -> nthZ 0%R g (g_last (hg_at D i j)) = 0%R)).
