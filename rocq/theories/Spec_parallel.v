(** * Spec_parallel: what it means that the domains of all the ranks together represent a mesh (C68). *)
From Coq Require Import Reals Permutation Sorted.
From Verif Require Import Py Model_part Spec_part Model_conn Spec_conn Model_geom Spec_geom Model_halo Spec_halo Model_interp Spec_interp Model_domain Spec_domain.
Open Scope Z_scope.

(** A simplicial mesh without periodic boundaries: cells are not flat, two cells lie on opposite sides of their common facet; the nodes have the
    labels 0 (inside) to 2*dim, and each facet of the boundary gets one of the labels 1 .. 2*dim from its nodes (C15). *)
Record valid_mesh (dim : Z) (cells : list (list Z)) (nodes : list pt) (labels : list Z) : Prop := {
  vm_mesh : wf_mesh dim (zlen nodes) cells;
  vm_nonflat : forall c, iscell cells c -> nonflat dim nodes (cell cells c);
  vm_proper : proper dim nodes cells;
  vm_labels : zlen labels = zlen nodes /\ forall l, In l labels -> 0 <= l <= 2 * dim;
  vm_boundary : forall c F, only_cell dim cells c F -> 1 <= face_label (priority dim) (map (nthZ 0 labels) F) <= 2 * dim }.
(** A distribution of the cells to the ranks 0 .. SIZE-1.  One rank: it owns everything (and every node belongs to a cell).  Several ranks: every
    rank owns a cell with a facet shared with another rank, and METIS gives a node to the owner of a cell around it. *)
Record valid_split (dim SIZE : Z) (cells : list (list Z)) (nodes : list pt) (npart0 epart : list Z) : Prop := {
  vs_size : 1 <= SIZE;
  vs_owners : zlen epart = zlen cells /\ forall c, iscell cells c -> 0 <= owner epart c < SIZE;
  vs_alone : SIZE = 1 -> 0 < zlen cells /\ forall k, 0 <= k < zlen nodes -> exists c, iscell cells c /\ In k (cell cells c);
  vs_several : 1 < SIZE -> zlen npart0 = zlen nodes /\ metis_contract cells nodes npart0 epart /\
     forall r, 0 <= r < SIZE -> exists a b F, has_facet dim cells a F /\ has_facet dim cells b F /\ owner epart a = r /\ owner epart b <> r }.

(** ** Reading the tables of the domains in terms of the mesh *)
Definition no_domain : domain := {| dm_dim := 0; dm_vertex := []; dm_old := []; dm_nodename := []; dm_nodecell := []; dm_nodehalo := []; dm_nodeperiodic := []; dm_nodeghost := [];
  dm_haloghost := []; dm_hginfo := []; dm_nodevar := []; dm_nodeglob := []; dm_cellnodes := []; dm_center := []; dm_volume := []; dm_cellnid := []; dm_faceid := []; dm_cellfid := [];
  dm_nf := []; dm_cellhalo := []; dm_loctoglob := []; dm_periodicfid := []; dm_periodicnid := []; dm_shift := []; dm_facenodes := []; dm_cellid := []; dm_name := []; dm_normal := [];
  dm_mesure := []; dm_fcenter := []; dm_opp := []; dm_halofid := []; dm_fghost := []; dm_diamond := []; dm_centerh := []; dm_hext := []; dm_nhg := 0 |}.
Definition domain_of (Ds : list domain) (r : Z) : domain := nthZ no_domain Ds r.
(** the number in the mesh of local cell c, local node k, halo cell h *)
Definition gcell (D : domain) (c : Z) : Z := nthZ (-1) (dm_loctoglob D) c.
Definition gnode (D : domain) (k : Z) : Z := nthZ (-1) (dm_nodeglob D) k.
Definition ghalo (D : domain) (h : Z) : Z := nthZ (-1) (nthZ [] (dm_hext D) h) 0.
Definition iscell_of (D : domain) (c : Z) : Prop := 0 <= c < zlen (dm_loctoglob D).
Definition isnode_of (D : domain) (k : Z) : Prop := 0 <= k < zlen (dm_nodeglob D).
Definition ishalo_of (D : domain) (h : Z) : Prop := 0 <= h < zlen (dm_hext D).
(** face f of the domain is the facet F of the mesh *)
Definition gface (D : domain) (f : Z) (F : list Z) : Prop := isface D f /\ Permutation (map (gnode D) (nthZ [] (dm_facenodes D) f)) F.
Definition left_of (D : domain) (f : Z) : Z := nthZ 0 (nthZ [] (dm_cellid D) f) 0.
(** the boundary faces around a node, as the domain lists them *)
Definition ghosts_of (D : domain) (k : Z) : list gentry := real_ghosts (nthZ [] (dm_nodeghost D) k).
Definition haloghosts_of (D : domain) (k : Z) : list gentry := real_ghosts (nthZ [] (dm_haloghost D) k).

(** Rank r's part of the mesh *)
Inductive part_kind (dim : Z) (cells : list (list Z)) (labels epart : list Z) (r : Z) (D : domain) (f : Z) (F : list Z) : Prop :=
| Within (a b : Z) (cell_a : iscell_of D a) (cell_b : iscell_of D b) (two : a <> b) (sides : forall c, has_facet dim cells c F <-> c = gcell D a \/ c = gcell D b)
    (row : nthZ [] (dm_cellid D) f = [a; b]) (name : nthZ 0 (dm_name D) f = 0)
| AtBoundary (a : Z) (cell_a : iscell_of D a) (one : only_cell dim cells (gcell D a) F)
    (row : nthZ [] (dm_cellid D) f = [a; -1]) (name : nthZ 0 (dm_name D) f = face_label (priority dim) (map (nthZ 0 labels) F)) (label : 1 <= nthZ 0 (dm_name D) f <= 2 * dim)
| BetweenRanks (a : Z) (cell_a : iscell_of D a) (halo : ishalo_of D (nthZ 0 (dm_halofid D) f)) (other : owner epart (ghalo D (nthZ 0 (dm_halofid D) f)) <> r)
    (sides : forall c, has_facet dim cells c F <-> c = gcell D a \/ c = ghalo D (nthZ 0 (dm_halofid D) f))
    (row : nthZ [] (dm_cellid D) f = [a; -10]) (name : nthZ 0 (dm_name D) f = 10).
(** a facet at node g of the mesh between a cell of rank r and a cell of another rank *)
Definition cut_at (dim : Z) (cells : list (list Z)) (epart : list Z) (r g : Z) : Prop :=
  exists a b F, has_facet dim cells a F /\ has_facet dim cells b F /\ owner epart a = r /\ owner epart b <> r /\ In g F.

Record part_of (dim : Z) (cells : list (list Z)) (nodes : list pt) (labels epart : list Z) (r : Z) (D : domain) : Prop := {
  (* the cells of rank r, in the order of the mesh, with their nodes, centres and volumes *)
  pa_cells : dm_loctoglob D = owned cells epart r;
  pa_sizes : zlen (dm_cellnodes D) = zlen (dm_loctoglob D) /\ zlen (dm_center D) = zlen (dm_loctoglob D) /\ zlen (dm_volume D) = zlen (dm_loctoglob D) /\
     zlen (dm_faceid D) = zlen (dm_loctoglob D) /\ zlen (dm_cellid D) = zlen (dm_facenodes D) /\ zlen (dm_centerh D) = zlen (dm_hext D) /\
     zlen (dm_vertex D) = zlen (dm_nodeglob D) /\ zlen (dm_old D) = zlen (dm_nodeglob D);
  pa_cell : forall c, iscell_of D c -> Permutation (map (gnode D) (nthZ [] (dm_cellnodes D) c)) (cell cells (gcell D c)) /\
     nthZ vzero (dm_center D) c = cell_centre dim nodes (cell cells (gcell D c)) /\ nthZ 0%R (dm_volume D) c = cell_measure nodes (cell cells (gcell D c)) /\
     (0 < nthZ 0%R (dm_volume D) c)%R;
  (* the nodes of these cells, once each, with coordinates and labels *)
  pa_nodes : NoDup (dm_nodeglob D) /\ forall g, In g (dm_nodeglob D) <-> exists c, iscell cells c /\ owner epart c = r /\ In g (cell cells c);
  pa_node : forall k, isnode_of D k -> nthZ vzero (dm_vertex D) k = at_node nodes (gnode D k) /\ nthZ 0 (dm_old D) k = nthZ 0 labels (gnode D k);
  (* the rows of cells and faces hold numbers of nodes *)
  pa_numbers : (forall c, iscell_of D c -> Forall (isnode_of D) (nthZ [] (dm_cellnodes D) c)) /\ (forall f, isface D f -> Forall (isnode_of D) (nthZ [] (dm_facenodes D) f));
  (* the faces are the facets of these cells, once each *)
  pa_faces : forall f, isface D f -> exists c F, has_facet dim cells c F /\ owner epart c = r /\ gface D f F;
  pa_facets : forall c F, has_facet dim cells c F -> owner epart c = r -> exists f, gface D f F /\ forall f', gface D f' F -> f' = f;
  pa_cellfaces : forall c f F, iscell_of D c -> gface D f F -> In f (nthZ [] (dm_faceid D) c) <-> incl F (cell cells (gcell D c));
  (* inside the rank, on the boundary of the mesh, or between two ranks; outward normals, measures, centres and ghosts *)
  pa_kinds : forall f c F, has_facet dim cells c F -> gface D f F -> part_kind dim cells labels epart r D f F;
  pa_geometry : forall f F, gface D f F -> outward_of nodes (cell cells (gcell D (left_of D f))) F (nthZ vzero (dm_normal D) f) /\
     nthZ 0%R (dm_mesure D) f = vlen (nthZ vzero (dm_normal D) f) /\ nthZ vzero (dm_fcenter D) f = barycentre (map (at_node nodes) F);
  pa_ghosts : forall f F, gface D f F -> 1 <= nthZ 0 (dm_name D) f <= 2 * dim -> mirror nodes F (nthZ vzero (dm_center D) (left_of D f)) (nthZ vzero (dm_fghost D) f);
  (* the halo cells are the cells of other ranks sharing a node with a cell of rank r, once each, with their centres *)
  pa_halos : NoDup (map (ghalo D) (range (zlen (dm_hext D)))) /\
     (forall c, (exists h, ishalo_of D h /\ ghalo D h = c) <-> iscell cells c /\ owner epart c <> r /\ exists c', iscell cells c' /\ owner epart c' = r /\ share_node cells c c') /\
     forall h, ishalo_of D h -> nthZ vzero (dm_centerh D) h = cell_centre dim nodes (cell cells (ghalo D h));
  (* around a node: its cells in this rank; the label 10 and the halo cells exactly if a facet at the node lies between ranks *)
  pa_node_cells : forall k, isnode_of D k -> forall c, In c (counted (nthZ [] (dm_nodecell D) k)) <-> iscell_of D c /\ In (gnode D k) (cell cells (gcell D c));
  pa_node_labels : forall k, isnode_of D k -> (nthZ 0 (dm_nodename D) k = 10 <-> cut_at dim cells epart r (gnode D k)) /\
     (nthZ 0 (dm_nodename D) k <> 10 -> nthZ 0 (dm_nodename D) k = nthZ 0 labels (gnode D k));
  pa_node_halos : forall k, isnode_of D k -> forall h, In h (counted (nthZ [] (dm_nodehalo D) k)) <-> nthZ 0 (dm_nodename D) k = 10 /\ ishalo_of D h /\ In (gnode D k) (cell cells (ghalo D h));
  (* around a cell *)
  pa_cell_cells : forall c, iscell_of D c -> forall x, In x (counted (nthZ [] (dm_cellnid D) c)) <-> iscell_of D x /\ x <> c /\ share_node cells (gcell D c) (gcell D x);
  pa_cell_halos : forall c, iscell_of D c -> NoDup (counted (nthZ [] (dm_cellhalo D) c)) /\ forall h, In h (counted (nthZ [] (dm_cellhalo D) c)) <->
     ishalo_of D h /\ exists g, In g (cell cells (gcell D c)) /\ cut_at dim cells epart r g /\ In g (cell cells (ghalo D h));
  (* the ghosts at a node are those of the boundary faces of the rank at this node *)
  pa_node_ghosts : forall k, isnode_of D k ->
     map g_last (ghosts_of D k) = filter (fun f => (1 <=? nthZ 0 (dm_name D) f) && (nthZ 0 (dm_name D) f <=? 2 * dim) && mem k (nthZ [] (dm_facenodes D) f)) (range (zlen (dm_facenodes D))) /\
     forall e, In e (ghosts_of D k) -> g_pt e = nthZ vzero (dm_fghost D) (g_last e) /\ g_cell e = left_of D (g_last e) /\ g_name e = nthZ 0 (dm_name D) (g_last e);
  (* no cell is listed twice around a node or a cell *)
  pa_once : (forall k, isnode_of D k -> NoDup (counted (nthZ [] (dm_nodecell D) k)) /\ NoDup (counted (nthZ [] (dm_nodehalo D) k))) /\
     forall c, iscell_of D c -> NoDup (counted (nthZ [] (dm_cellnid D) c)) }.

(** ** The ghosts received from the other ranks *)
(** the ghosts of domain D at node g of the mesh, if g is one of its nodes with label 10 *)
Definition ghosts_at_node (D : domain) (g : Z) : list gentry :=
  flat_map (fun k => if (gnode D k =? g) && (nthZ 0 (dm_nodename D) k =? 10) then ghosts_of D k else []) (range (zlen (dm_nodeglob D))).
Definition others_at_node (SIZE : Z) (Ds : list domain) (r g : Z) : list (Z * gentry) :=
  flat_map (fun s => if s =? r then [] else map (pair s) (ghosts_at_node (domain_of Ds s) g)) (range SIZE).
Definition received_ghosts (SIZE : Z) (Ds : list domain) (r : Z) : Prop :=
  let D := domain_of Ds r in
  (forall k, isnode_of D k -> nthZ 0 (dm_nodename D) k <> 10 -> haloghosts_of D k = []) /\
  (forall k, isnode_of D k -> nthZ 0 (dm_nodename D) k = 10 ->
     let L := others_at_node SIZE Ds r (gnode D k) in
     Forall2 (fun se e => let D' := domain_of Ds (fst se) in
        g_pt e = g_pt (snd se) /\ g_name e = g_name (snd se) /\ ishalo_of D (g_cell e) /\ ghalo D (g_cell e) = gcell D' (g_cell (snd se))) L (haloghosts_of D k) /\
     exists pad pad', nthZ [] (dm_hginfo D) k = map (fun se => nthZ vzero (dm_fcenter (domain_of Ds (fst se))) (g_last (snd se))) L ++ pad /\
       nthZ [] (dm_haloghost D) k = haloghosts_of D k ++ pad') /\
  flat_map (fun k => if nthZ 0 (dm_nodename D) k =? 10 then map g_last (haloghosts_of D k) else []) (range (zlen (dm_nodeglob D))) = range (dm_nhg D).

Record represents (dim SIZE : Z) (cells : list (list Z)) (nodes : list pt) (labels epart : list Z) (Ds : list domain) : Prop := {
  rp_count : zlen Ds = SIZE;
  rp_part : forall r, 0 <= r < SIZE -> part_of dim cells nodes labels epart r (domain_of Ds r);
  rp_ghosts : forall r, 0 <= r < SIZE -> received_ghosts SIZE Ds r }.

(** ** Consequences *)
(** [w] holds the values of X on the cells of every rank, [halo] on the halo cells *)
Definition values_of {V} (d : V) (SIZE : Z) (Ds : list domain) (X : Z -> V) (w : list (list V)) : Prop :=
  zlen w = SIZE /\ forall r, 0 <= r < SIZE -> zlen (nthZ [] w r) = zlen (dm_loctoglob (domain_of Ds r)) /\
    forall c, iscell_of (domain_of Ds r) c -> nthZ d (nthZ [] w r) c = X (gcell (domain_of Ds r) c).
Definition halo_values_of {V} (d : V) (SIZE : Z) (Ds : list domain) (X : Z -> V) (halo : list (list V)) : Prop :=
  zlen halo = SIZE /\ forall r, 0 <= r < SIZE -> zlen (nthZ [] halo r) = zlen (dm_hext (domain_of Ds r)) /\
    forall h, ishalo_of (domain_of Ds r) h -> nthZ d (nthZ [] halo r) h = X (ghalo (domain_of Ds r) h).
(** the cells around each node are connected through facets at this node *)
Inductive around (dim : Z) (cells : list (list Z)) (g : Z) : Z -> Z -> Prop :=
| around_refl (c : Z) : around dim cells g c c
| around_step (a b c : Z) (F : list Z) : has_facet dim cells a F -> has_facet dim cells b F -> In g F -> around dim cells g b c -> around dim cells g a c.
Definition star_connected (dim : Z) (cells : list (list Z)) : Prop :=
  forall g a b, iscell cells a -> iscell cells b -> In g (cell cells a) -> In g (cell cells b) -> around dim cells g a b.
(** the cells of the mesh are connected through facets *)
Inductive linked (dim : Z) (cells : list (list Z)) : Z -> Z -> Prop :=
| linked_refl (c : Z) : linked dim cells c c
| linked_step (a b c : Z) (F : list Z) : has_facet dim cells a F -> has_facet dim cells b F -> linked dim cells b c -> linked dim cells a c.
