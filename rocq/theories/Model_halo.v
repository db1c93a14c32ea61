(** * Model_halo: partition-boundary faces, halo stencils and ghost centres.
    Models manapy/ddm/numba_ddm.py:369-501 (create_2d_halo_structure) and 504-686 (create_3d_halo_structure).
    The 2D and 3D functions have the same structure and are one definition with parameter [dim]. *)
From Coq Require Export Reals.
From Verif Require Import Py Model_part Model_label Model_conn Model_geom.
Open Scope Z_scope.

(** [halos._faces]: an (Ordered)dict with node tuples as keys; the newest binding is in front *)
Definition dictL := list (list Z * Z).
Definition list_eqb (a b : list Z) : bool := if list_eq_dec Z.eq_dec a b then true else false.
Definition lget (d : dictL) (k : list Z) : option Z :=
  match find (fun p => list_eqb (fst p) k) d with Some p => Some (snd p) | None => None end.
Definition lset (d : dictL) (k : list Z) (v : Z) : dictL := (k, v) :: d.

(** numba_ddm.py:381-383 / 515-518: the facets of the halo cell of row r (r = [global number; nodes...]) *)
Definition halo_keys (dim : Z) (r : list Z) : res (list (list Z)) :=
  do a <- get r 1; do b <- get r 2; do c <- get r 3;
  if dim =? 2 then ret [[a; b]; [b; c]; [a; c]]
  else do d <- get r 4; ret [[a; b; c]; [c; d; a]; [a; b; d]; [d; b; c]].
(** numba_ddm.py:379-384 / 513-520: [k] starts at 1 and grows by dim+1 *)
Definition halo_dict (dim : Z) (halosext : list (list Z)) : res dictL :=
  do s <- foldM (fun s r =>
            let '(d, k) := s in
            do ks <- halo_keys dim r;
            ret (fst (fold_left (fun '(d, k) key => (lset d key k, k + 1)) ks (d, k)), k + (dim + 1)))
          halosext ([], 1);
  ret (fst s).

Record hstate := { hs_cellid : list (list Z); hs_name : list Z; hs_nodename : list Z; hs_halofid : list Z }.
(** numba_ddm.py:389, 397 / 527, 537, 546, 555, 564, 573: the orders in which the nodes are looked up *)
Definition lookups (dim : Z) (gs : list Z) : res (list (list Z)) :=
  do a <- get gs 0; do b <- get gs 1;
  if dim =? 2 then ret [[a; b]; [b; a]]
  else do c <- get gs 2; ret [[a; b; c]; [a; c; b]; [b; a; c]; [b; c; a]; [c; a; b]; [c; b; a]].
(** numba_ddm.py:389-395 / 527-535: one lookup (the other blocks repeat this one with another key) *)
Definition mark_one (dim : Z) (dict : dictL) (F : list Z) (i : Z) (s : hstate) (key : list Z) : res hstate :=
  match lget dict key with
  | None => ret s
  | Some v =>
    if v =? 0 then ret s else      (* "if halos._faces.get(key):" is false for 0 *)
    do c0 <- get2 (hs_cellid s) i 0;
    do cid <- set (hs_cellid s) i [c0; -10];
    do nm <- set (hs_name s) i 10;
    do nn <- foldM (fun nn k => set nn k 10) F (hs_nodename s);
    do hf <- set (hs_halofid s) i (Z.quot (-1 + v) (dim + 1));
    ret {| hs_cellid := cid; hs_name := nm; hs_nodename := nn; hs_halofid := hf |}
  end.
(** numba_ddm.py:386-404 / 522-580 *)
Definition mark_face (dim : Z) (dict : dictL) (loctoglob : list Z) (facenodes : list (list Z)) (s : hstate) (i : Z) : res hstate :=
  do F <- get facenodes i;
  do gs <- mapM (get loctoglob) F;
  do ks <- lookups dim gs;
  foldM (mark_one dim dict F i) ks s.
Definition mark_halo_faces (dim : Z) (halosext : list (list Z)) (loctoglob : list Z) (facenodes : list (list Z)) (s : hstate) : res hstate :=
  do dict <- halo_dict dim halosext;
  foldM (mark_face dim dict loctoglob facenodes) (range (zlen facenodes)) s.

(** numba_ddm.py:412 / 589: [where(halosext[:,1:dim+2] == g)[0]] *)
Definition where_rows (dim : Z) (halosext : list (list Z)) (g : Z) : list Z :=
  flat_map (fun i => map (fun _ => i) (filter (Z.eqb g) (firstn (Z.to_nat (dim + 1)) (skipn 1 (nthZ [] halosext i))))) (range (zlen halosext)).
(** numba_ddm.py:406-418 / 583-595: [tmp[i][0]] and [longh[i]] *)
Definition node_where (dim : Z) (halosext : list (list Z)) (loctoglob nodename : list Z) (i : Z) : res (list Z * Z) :=
  do nm <- get nodename i;
  if nm =? 10 then do g <- get loctoglob i; let arg := where_rows dim halosext g in ret (arg, zlen arg)
  else ret ([-1], 0).
(** numba_ddm.py:420-427 / 597-604, row i of nodes._halonid *)
Definition node_row (longueur : Z) (t : list Z * Z) : res (list Z) :=
  do r <- foldM (fun r j => do v <- get (fst t) j; set r j v) (range (zlen (fst t))) (zeros_like (-1) longueur);
  ret (r ++ [snd t]).
Definition node_halonid (dim : Z) (halosext : list (list Z)) (loctoglob nodename : list Z) (nbnodes : Z) : res (list (list Z)) :=
  do ts <- mapM (node_where dim halosext loctoglob nodename) (range nbnodes);
  let longueur := fold_left (fun m (p : Z * (list Z * Z)) => if fst p =? 10 then Z.max m (zlen (fst (snd p))) else m) (combine nodename ts) 0 in
  mapM (node_row longueur) ts.

(** numba_ddm.py:473-478 / 657-662: [list(set(...))]; the iteration order of a Python set is an implementation
    detail, it is taken increasing here and no theorem depends on it *)
Definition cell_halo (dim : Z) (halonid cells : list (list Z)) (i : Z) : res (list Z) :=
  do l <- foldM (fun l j => do nod <- get2 cells i j; do r <- get halonid nod; do k <- get r (-1);
                            ret (l ++ firstn (Z.to_nat k) r)) (range (dim + 1)) [];
  ret (np_unique l).
(** numba_ddm.py:471-486 / 655-670 *)
Definition cell_halonid (dim : Z) (halonid cells : list (list Z)) (nbcells : Z) : res (list (list Z)) :=
  do rows <- mapM (cell_halo dim halonid cells) (range nbcells);
  let m := fold_left (fun m r => Z.max m (zlen r)) rows 0 in
  ret (map (fun r => r ++ repeat (-1) (Z.to_nat (m - zlen r)) ++ [zlen r]) rows).

Definition rdiv (a b : R) : res R := if Req_EM_T b 0 then Err ZeroDivision else Ok (a / b)%R.

(** faces._ghostcenter[i] = [x, y, (z,) gamma] *)
Record ghostc := { gc_pt : pt; gc_gamma : R }.
(** an entry of nodes._ghostcenter[k] = [x, y, (z,) cell, name, face] with the parallel entry of
    nodes._ghostfaceinfo[k] = [face centre, face normal] *)
Record nodeghost := { ng_pt : pt; ng_cell : Z; ng_name : Z; ng_face : Z; ng_fcenter : pt; ng_fnormal : pt }.
Definition gc0 : ghostc := {| gc_pt := p0; gc_gamma := 0 |}.

(** numba_ddm.py:444-459: ghost centre of a 2D face *)
Definition ghost2 (F : list Z) (vertex : list pt) (v1 : pt) : res ghostc :=
  do nod1 <- get F 1; do nod2 <- get F 0;
  do x1 <- get vertex nod1; do x2 <- get vertex nod2;
  do gamma <- rdiv ((px v1 - px x2) * (px x1 - px x2) + (py v1 - py x2) * (py x1 - py x2)) ((px x1 - px x2) ^ 2 + (py x1 - py x2) ^ 2);
  let kx := (gamma * px x1 + (1 - gamma) * px x2)%R in let ky := (gamma * py x1 + (1 - gamma) * py x2)%R in
  ret {| gc_pt := P3 (2 * kx + -1 * px v1) (2 * ky + -1 * py v1) 0; gc_gamma := gamma |}.
(** numba_ddm.py:628-641: ghost centre of a 3D face *)
Definition ghost3 (fg : facegeo) (v1 : pt) : res ghostc :=
  do nx <- rdiv (px (fg_normal fg)) (fg_mesure fg); do ny <- rdiv (py (fg_normal fg)) (fg_mesure fg); do nz <- rdiv (pz (fg_normal fg)) (fg_mesure fg);
  let n := P3 nx ny nz in
  let gamma := pdot (psub (fg_center fg) v1) n in
  let kk := padd v1 (pscal gamma n) in
  ret {| gc_pt := padd (pscal 2 kk) (pscal (-1) v1); gc_gamma := gamma |}.
(** numba_ddm.py:446 / 622 *)
Definition has_ghost (dim name : Z) : bool :=
  if dim =? 2 then (name =? 1) || (name =? 2) || (name =? 3) || (name =? 4) else negb (name =? 0) && (name <? 7).
(** numba_ddm.py:443-468 / 621-652, face i *)
Definition ghost_face (dim : Z) (facenodes cellid : list (list Z)) (name : list Z) (fgs : list facegeo) (vertex centerc : list pt)
    (s : list ghostc * list (list nodeghost)) (i : Z) : res (list ghostc * list (list nodeghost)) :=
  do nm <- get name i;
  if has_ghost dim nm then
    do F <- get facenodes i; do fg <- get fgs i;
    do c <- get2 cellid i 0; do v1 <- get centerc c;
    do g <- (if dim =? 2 then ghost2 F vertex v1 else ghost3 fg v1);
    do gcs <- set (fst s) i g;
    let e := {| ng_pt := gc_pt g; ng_cell := c; ng_name := nm; ng_face := i; ng_fcenter := fg_center fg; ng_fnormal := fg_normal fg |} in
    do nod1 <- get F 1; do nod2 <- get F 0;
    do ngs <- append_at (snd s) nod1 e;
    do ngs <- append_at ngs nod2 e;
    do ngs <- (if dim =? 2 then ret ngs else do nod3 <- get F 2; append_at ngs nod3 e);
    ret (gcs, ngs)
  else
    do gcs <- set (fst s) i (if dim =? 2 then {| gc_pt := P3 (-1) (-1) 0; gc_gamma := -1 |} else {| gc_pt := p0; gc_gamma := -1 |});
    ret (gcs, snd s).
Definition ghost_centers (dim : Z) (facenodes cellid : list (list Z)) (name : list Z) (fgs : list facegeo) (vertex centerc : list pt)
    : res (list ghostc * list (list nodeghost)) :=
  foldM (ghost_face dim facenodes cellid name fgs vertex centerc) (range (zlen facenodes))
    (zeros_like gc0 (zlen facenodes), zeros_like [] (zlen vertex)).

Record halostruct := { h_cellid : list (list Z); h_name : list Z; h_nodename : list Z; h_halofid : list Z;
  h_nodehalo : list (list Z); h_cellhalo : list (list Z); h_ghost : list ghostc; h_nodeghost : list (list nodeghost);
  h_loctoglob : list Z }.
(** create_2d_halo_structure / create_3d_halo_structure *)
Definition create_halo_structure (dim size : Z) (g : geometry) (vertex : list pt) (nodename : list Z)
    (halosext : list (list Z)) (loctoglob : list Z) : res halostruct :=
  let cells := map cg_nodes (ge_cells g) in
  let nbn := zlen vertex in
  let s0 := {| hs_cellid := cn_cellid (ge_conn g); hs_name := map fg_name (ge_faces g); hs_nodename := nodename;
               hs_halofid := zeros_like 0 (zlen (ge_facenodes g)) |} in
  do s <- (if 1 <? size then mark_halo_faces dim halosext loctoglob (ge_facenodes g) s0 else ret s0);
  do nh <- (if 1 <? size then node_halonid dim halosext loctoglob (hs_nodename s) nbn else ret (zeros_like [0; 0] nbn));
  do gg <- ghost_centers dim (ge_facenodes g) (hs_cellid s) (hs_name s) (ge_faces g) vertex (map cg_center (ge_cells g));
  do ch <- cell_halonid dim nh cells (zlen cells);
  ret {| h_cellid := hs_cellid s; h_name := hs_name s; h_nodename := hs_nodename s; h_halofid := hs_halofid s;
         h_nodehalo := nh; h_cellhalo := if size =? 1 then zeros_like [0; 0] (zlen cells) else ch;
         h_ghost := fst gg; h_nodeghost := snd gg; h_loctoglob := if size =? 1 then range nbn else loctoglob |}.
