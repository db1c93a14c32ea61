(** * Spec_bc: vocabulary for C35-C37, C51. *)
From Verif Require Import Py Model_part Model_label Model_conn Model_geom Spec_geom Model_interp Model_bc.
Open Scope Z_scope.

(** the sides of a domain, the label of the faces and nodes of a side (define_ghost_node, C09, C15) and their label on a periodic side *)
Definition sides (dim : Z) : list loc := if dim =? 3 then [LIn; LOut; LBottom; LUpper; LFront; LBack] else [LIn; LOut; LBottom; LUpper].
Definition side_label (l : loc) : Z := match l with LIn => 1 | LOut => 2 | LUpper => 3 | LBottom => 4 | LFront => 5 | LBack => 6 | LOther => 0 end.
Definition periodic_label (l : loc) : Z := match l with LIn => 11 | LOut => 22 | LUpper => 33 | LBottom => 44 | LFront => 55 | LBack => 66 | LOther => 0 end.
Definition opposite (l : loc) : loc := match l with LIn => LOut | LOut => LIn | LUpper => LBottom | LBottom => LUpper | LFront => LBack | LBack => LFront | LOther => LOther end.
(** side l of the domain is periodic: it has faces with the periodic label *)
Definition side_periodic (D : bcdom) (l : loc) : Prop := In (periodic_label l) (bd_name D).

(** tables of the right sizes; opposite sides are periodic together; on a periodic side no face keeps the plain label (the node labels 1, 2, ...
    of that direction have become 11, 22, ...), and halo ghosts have the names of non-periodic sides *)
Record wf_bcdom (D : bcdom) : Prop := {
  wb_dim : bd_dim D = 2 \/ bd_dim D = 3;
  wb_size : 0 <= bd_nbcells D /\ 0 <= bd_nbnodes D /\ 0 <= bd_nbhalos D /\ 0 <= bd_sizehg D;
  wb_len : zlen (bd_fcenter D) = zlen (bd_name D) /\ zlen (bd_cellid D) = zlen (bd_name D) /\ zlen (bd_oldname D) = bd_nbnodes D /\ zlen (bd_vertex D) = bd_nbnodes D /\
           zlen (bd_hg D) = bd_nbnodes D /\ zlen (bd_hginfo D) = bd_nbnodes D;
  wb_cell : forall f, 0 <= f < zlen (bd_name D) -> 0 < zlen (nthZ [] (bd_cellid D) f) /\ 0 <= nthZ 0 (nthZ [] (bd_cellid D) f) 0 < bd_nbcells D;
  wb_hg : forall i, 0 <= i < bd_nbnodes D -> zlen (nthZ [] (bd_hginfo D) i) = zlen (nthZ [] (bd_hg D) i) /\
     forall e, In e (nthZ [] (bd_hg D) i) -> g_last e = -1 \/ 0 <= g_last e < bd_sizehg D /\ 0 <= g_cell e < bd_nbhalos D;
  wb_halonodes : forall i, In i (bd_halonodes D) -> 0 <= i < bd_nbnodes D;
  wb_pairs : forall l, side_periodic D l -> side_periodic D (opposite l);
  wb_periodic : forall l, In l (sides (bd_dim D)) -> side_periodic D l -> ~ In (side_label l) (bd_name D);
  wb_hgperiodic : forall l n e, In l (sides (bd_dim D)) -> side_periodic D l -> In n (bd_halonodes D) -> In e (nthZ [] (bd_hg D) n) -> g_last e <> -1 -> g_name e <> periodic_label l }.

Definition face_name (D : bcdom) (f : Z) : Z := nthZ 0 (bd_name D) f.
Definition left_cell (D : bcdom) (f : Z) : Z := nthZ 0 (nthZ [] (bd_cellid D) f) 0.
(** a BC dictionary: each key once, only sides of the domain, only the types dirichlet, neumann, periodic and nonslip *)
Definition bc_known (D : bcdom) (bc : list (loc * bctype)) : Prop :=
  NoDup (map fst bc) /\ forall l t, In (l, t) bc -> In l (sides (bd_dim D)) /\ t <> BSlip /\ t <> BOther.
(** it names periodic exactly the periodic sides, and a value is given for each dirichlet side *)
Definition bc_consistent (D : bcdom) (bc : list (loc * bctype)) (values : list (loc * bcval)) : Prop :=
  (forall l t, In (l, t) bc -> (t = BPeriodic <-> side_periodic D l)) /\ forall l, In (l, BDirichlet) bc -> lookup values l <> None.
Definition bc_complete (D : bcdom) (bc : list (loc * bctype)) : Prop := forall l, In l (sides (bd_dim D)) -> In l (map fst bc).
(** no dirichlet entry after a neumann or nonslip entry *)
Fixpoint dirichlet_first (bc : list (loc * bctype)) : Prop :=
  match bc with
  | [] => True
  | (_, t) :: r => (t = BNeumann \/ t = BNonslip -> forall l, ~ In (l, BDirichlet) r) /\ dirichlet_first r
  end.

(** the ghost value side l prescribes at its face f when the cells hold w *)
Definition prescribed (D : bcdom) (values : list (loc * bcval)) (w : list R) (l : loc) (t : bctype) (f : Z) : R :=
  match t with
  | BNeumann => nthZ 0%R w (left_cell D f)
  | BNonslip => (- nthZ 0%R w (left_cell D f))%R
  | BDirichlet => match lookup values l with
                  | Some (VFun g) => let x := nthZ vzero (bd_fcenter D) f in g (px x) (py x) (pz x)
                  | Some (VNum x) => x
                  | _ => 0%R
                  end
  | _ => 0%R
  end.

(** what a program may do between construction and an update of the ghosts: fill the arrays cell, node, halo, ghost in place, update *)
Inductive op := SetCell (w : list R) | SetNode (w : list R) | SetHalo (w : list R) | SetGhost (w : list R) | UpdateGhosts.
Definition fill (v : variable) (r : Z) (w : list R) : res variable :=
  do h <- set (va_heap v) r w;
  ret {| va_heap := h; va_cell := va_cell v; va_bcs := va_bcs v; va_dirichletfaces := va_dirichletfaces v; va_neumannfaces := va_neumannfaces v;
         va_BCdirichlet := va_BCdirichlet v; va_BCneumann := va_BCneumann v |}.
Definition apply (D : bcdom) (v : variable) (o : op) : res variable :=
  match o with
  | SetCell w => fill v (va_cell v) w | SetNode w => fill v r_node w | SetHalo w => fill v r_halo w | SetGhost w => fill v r_ghost w
  | UpdateGhosts => update_ghost_value D v
  end.
Definition op_ok (D : bcdom) (o : op) : Prop :=
  match o with
  | SetCell w => zlen w = bd_nbcells D | SetNode w => zlen w = bd_nbnodes D | SetHalo w => zlen w = bd_nbhalos D | SetGhost w => zlen w = zlen (bd_name D)
  | UpdateGhosts => True
  end.
(** with a nonslip side, each halo ghost at a halo node must have the number of a halo cell: the update reads the array of the halo cells there
    (see C35_haloghost_nonslip_refuted).  True of every sequential run: there are no halo nodes *)
Definition nonslip_readable (D : bcdom) (bc : list (loc * bctype)) : Prop :=
  forall l i e, In (l, BNonslip) bc -> In i (bd_halonodes D) -> In e (nthZ [] (bd_hg D) i) -> g_last e <> -1 -> g_last e < bd_nbhalos D.

(** two halo-ghost entries of halo nodes for the same ghost agree *)
Definition hg_entry (hg : list (list gentry)) (halonodes : list Z) (e : gentry) : Prop := exists i, In i halonodes /\ In e (nthZ [] hg i).
Definition hg_agree (hg : list (list gentry)) (halonodes : list Z) : Prop :=
  forall e e', hg_entry hg halonodes e -> hg_entry hg halonodes e' -> g_last e = g_last e' -> g_last e <> -1 -> g_cell e = g_cell e' /\ g_name e = g_name e'.
(** reflection of a plane velocity in the line with unit normal n: the first component *)
Definition reflect_x (u v nx ny : R) : R := (u - 2 * (u * nx + v * ny) * nx)%R.

(** dictionaries for which the claims hold: the restrictions are those the refutations of C35-C37 show to be needed *)
Definition bc_settings (D : bcdom) (bc : list (loc * bctype)) (values : list (loc * bcval)) : Prop :=
  bc_known D bc /\ bc_consistent D bc values /\ bc_complete D bc /\ dirichlet_first bc /\ nonslip_readable D bc.
(** without a dictionary: periodic on the periodic sides, neumann on the others *)
Definition default_type (D : bcdom) (l : loc) : bctype := if existsb (Z.eqb (periodic_label l)) (bd_name D) then BPeriodic else BNeumann.
Definition default_bc (D : bcdom) : list (loc * bctype) := map (fun l => (l, default_type D l)) (sides (bd_dim D)).
(** what the cells hold after a history *)
Definition held (D : bcdom) (ops : list op) : list R := fold_left (fun w o => match o with SetCell w' => w' | _ => w end) ops (map (fun _ => 0%R) (range (bd_nbcells D))).
(** the ghosts after an update in a state where the cells hold w and the ghosts g1 *)
Definition ghosts_updated (D : bcdom) (bc : list (loc * bctype)) (values : list (loc * bcval)) (w g1 g2 : list R) : Prop :=
  zlen g2 = zlen (bd_name D) /\
  (forall l t f, In (l, t) bc -> 0 <= f < zlen (bd_name D) -> face_name D f = side_label l -> nthZ 0%R g2 f = prescribed D values w l t f) /\
  forall f, 0 <= f < zlen (bd_name D) -> (forall l, In l (sides (bd_dim D)) -> face_name D f <> side_label l) -> nthZ 0%R g2 f = nthZ 0%R g1 f.
