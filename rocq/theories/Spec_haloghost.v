(** * Spec_haloghost: vocabulary for C67. *)
From Coq Require Import Reals.
From Verif Require Import Py Model_part Model_halo Model_interp Model_haloghost.
Open Scope Z_scope.

Definition no_rank : hgrank := {| hk_nodes := []; hk_ghost := []; hk_node := []; hk_cell := []; hk_neigh := []; hk_nodehalo := []; hk_ext := [] |}.
Definition rank_of (Hs : list hgrank) (s : Z) : hgrank := nthZ no_rank Hs s.
Definition global_node (H : hgrank) (i : Z) : Z := nthZ 0 (hk_node H) i.
(** the ghosts that rank s has at the node of global number g, if this is one of its halo nodes *)
Definition ghosts_at (H : hgrank) (g : Z) : list nodeghost :=
  flat_map (fun i => if global_node H i =? g then nthZ [] (hk_ghost H) i else []) (hk_nodes H).
(** the ghosts of the other ranks at g, in the order of the ranks, each with its rank *)
Definition ghosts_elsewhere (SIZE : Z) (Hs : list hgrank) (r g : Z) : list (Z * nodeghost) :=
  flat_map (fun s => if s =? r then [] else map (pair s) (ghosts_at (rank_of Hs s) g)) (range SIZE).
(** halo cell h of the rank is the cell of global number c *)
Definition halo_is (H : hgrank) (h c : Z) : Prop := 0 <= h < zlen (hk_ext H) /\ nthZ 0 (nthZ [] (hk_ext H) h) 0 = c.
(** what is received for ghost e of rank s *)
Definition received (Hs : list hgrank) (r : Z) (se : Z * nodeghost) (x : gentry) : Prop :=
  g_pt x = ng_pt (snd se) /\ g_name x = ng_name (snd se) /\ halo_is (rank_of Hs r) (g_cell x) (nthZ 0 (hk_cell (rank_of Hs (fst se))) (ng_cell (snd se))).

(** The data of the ranks fit together. *)
Record wf_exchange (SIZE : Z) (nparts : list (list Z)) (Hs : list hgrank) : Prop := {
  we_size : 1 <= SIZE /\ zlen Hs = SIZE;
  (* every rank: the halo nodes are nodes, listed once; node numbers are one-to-one; the ghosts belong to cells and faces of the rank *)
  we_nodes : forall r, 0 <= r < SIZE -> let H := rank_of Hs r in NoDup (hk_nodes H) /\ NoDup (hk_node H) /\ zlen (hk_node H) = zlen (hk_ghost H) /\ zlen (hk_nodehalo H) = zlen (hk_ghost H) /\
     forall i, In i (hk_nodes H) -> 0 <= i < zlen (hk_ghost H) /\ forall e, In e (nthZ [] (hk_ghost H) i) -> 0 <= ng_cell e < zlen (hk_cell H) /\ 0 <= ng_face e;
  (* the table of the ranks of a node: a halo node of r is a node of r, and its other ranks are neighbours *)
  we_parts : forall r i, 0 <= r < SIZE -> In i (hk_nodes (rank_of Hs r)) -> let g := global_node (rank_of Hs r) i in
     0 <= g < zlen nparts /\ NoDup (nthZ [] nparts g) /\ In r (nthZ [] nparts g) /\ (forall p, In p (nthZ [] nparts g) -> 0 <= p < SIZE /\ (p <> r -> In p (hk_neigh (rank_of Hs r))));
  we_neigh : forall r p, 0 <= r < SIZE -> In p (hk_neigh (rank_of Hs r)) -> 0 <= p < SIZE;
  (* the halo cells: global numbers are one-to-one, and the cells of the other ranks with a ghost at a halo node are halo cells of this node *)
  we_halos : forall r, 0 <= r < SIZE -> let H := rank_of Hs r in NoDup (map (fun row => nthZ 0 row 0) (hk_ext H)) /\
     forall i, In i (hk_nodes H) -> exists W pad, nthZ [] (hk_nodehalo H) i = W ++ pad ++ [zlen W] /\ (forall h, In h W -> 0 <= h < zlen (hk_ext H) /\ nthZ [] (hk_ext H) h <> []) /\
       forall s e, 0 <= s < SIZE -> s <> r -> In e (ghosts_at (rank_of Hs s) (global_node H i)) -> exists h, In h W /\ halo_is H h (nthZ 0 (hk_cell (rank_of Hs s)) (ng_cell e)) }.

(** the table of received ghosts of rank r *)
Record exchanged (SIZE : Z) (Hs : list hgrank) (r : Z) (o : hgout) : Prop := {
  ex_size : zlen (ho_ghost o) = zlen (hk_ghost (rank_of Hs r)) /\ zlen (ho_info o) = zlen (hk_ghost (rank_of Hs r));
  (* only halo nodes receive *)
  ex_others : forall i, 0 <= i < zlen (hk_ghost (rank_of Hs r)) -> ~ In i (hk_nodes (rank_of Hs r)) -> nthZ [] (ho_ghost o) i = [] /\ nthZ [] (ho_info o) i = [];
  (* a halo node receives all the ghosts of the other ranks at this node, and nothing else, with the centres of their faces *)
  ex_nodes : forall i, In i (hk_nodes (rank_of Hs r)) -> let L := ghosts_elsewhere SIZE Hs r (global_node (rank_of Hs r) i) in
     Forall2 (received Hs r) L (nthZ [] (ho_ghost o) i) /\ nthZ [] (ho_info o) i = map (fun se => ng_fcenter (snd se)) L;
  (* the received ghosts are numbered 0, 1, 2, ... along the halo nodes *)
  ex_numbers : 0 <= ho_size o /\ flat_map (fun i => map g_last (nthZ [] (ho_ghost o) i)) (hk_nodes (rank_of Hs r)) = range (ho_size o) }.
