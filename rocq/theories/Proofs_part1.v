(** * Proofs_part1: characterisation of create_npart_cpart. *)
From Verif Require Import Py PyLemmas Model_part Spec_part.
From Coq Require Import ZifyBool Sorting.Sorted Permutation.

Section Loops.
Variables (dim SIZE : Z) (cells : list (list Z)) (nodes : list pt) (ghost npart0 epart : list Z).
Hypothesis WF : wf_input dim SIZE cells nodes ghost npart0 epart.

Local Notation row c := (nodes_of cells c).
Local Notation own c := (owner epart c).
Local Notation nc := (zlen cells).
Local Notation nn := (zlen nodes).

Lemma row_get c : is_cell cells c -> get cells c = Ok (row c).
Proof. intros; apply get_nthZ; assumption. Qed.
Lemma own_get c : is_cell cells c -> get epart c = Ok (own c).
Proof. intros H; apply get_nthZ. rewrite (wf_epart_len _ _ _ _ _ _ _ WF). exact H. Qed.

(** loops over the nodes of a cell *)
Lemma row_loop {S} (g : S -> Z -> res S) c s : is_cell cells c ->
  foldM (fun s j => do k <- get2 cells c j; g s k) (range (dim + 1)) s = foldM g (row c) s.
Proof.
  intros Hc. rewrite <- (foldM_range_get g (row c) (dim + 1)).
  - apply foldM_ext; intros s' j _. unfold get2. rewrite row_get by assumption. reflexivity.
  - symmetry; apply (wf_rows _ _ _ _ _ _ _ WF); assumption.
Qed.
Lemma row_mapM {B} (g : Z -> res B) c : is_cell cells c ->
  mapM (fun j => do k <- get2 cells c j; g k) (range (dim + 1)) = mapM g (row c).
Proof.
  intros Hc. rewrite <- (mapM_range_get g (row c) (dim + 1)).
  - apply mapM_ext; intros j _. unfold get2. rewrite row_get by assumption. reflexivity.
  - symmetry; apply (wf_rows _ _ _ _ _ _ _ WF); assumption.
Qed.

(** ** loop 1 *)
Definition np_spec (i : Z) (np : list (list Z)) : Prop :=
  zlen np = nn /\
  forall k, 0 <= k < nn ->
    NoDup (nthZ [] np k) /\
    (forall p, In p (nthZ [] np k) <->
       p = nthZ 0 npart0 k \/ exists c, 0 <= c < i /\ In k (row c) /\ own c = p).

Definition ndp_spec (i : Z) (ndp : list (list Z)) : Prop :=
  zlen ndp = SIZE /\
  forall p, 0 <= p < SIZE ->
    nthZ [] ndp p = concat (map (nodes_of cells) (filter (fun c => own c =? p) (range i))).

Definition cp_spec (i : Z) (cp : list (list Z)) : Prop :=
  zlen cp = SIZE /\
  forall p, 0 <= p < SIZE -> nthZ [] cp p = filter (fun c => own c =? p) (range i).

Lemma filter_range_succ (f : Z -> bool) i : 0 <= i ->
  filter f (range (i + 1)) = filter f (range i) ++ (if f i then [i] else []).
Proof. intros; rewrite range_succ, filter_app_ by lia; cbn; destruct (f i); reflexivity. Qed.

Lemma npart_inner i np ndp :
  is_cell cells i -> np_spec i np -> ndp_spec i ndp ->
  exists np' ndp', foldM (npart_step cells epart i) (range (dim + 1)) (np, ndp) = Ok (np', ndp')
    /\ np_spec (i + 1) np' /\ ndp_spec (i + 1) ndp'.
Proof.
  intros Hi (Hnl & Hnp) (Hdl & Hndp).
  pose proof (wf_epart _ _ _ _ _ _ _ WF i Hi) as Ho.
  set (g := fun (s : list (list Z) * list (list Z)) k =>
     let '(npart, node_part) := s in
     do e <- get epart i;
     do nk <- get npart k;
     do npart' <- (if mem e nk then ret npart else append_at npart k e);
     do node_part' <- append_at node_part e k;
     ret (npart', node_part')).
  assert (E : foldM (npart_step cells epart i) (range (dim + 1)) (np, ndp) = foldM g (row i) (np, ndp)).
  { rewrite <- row_loop by assumption. apply foldM_ext. intros [a b] j _. unfold npart_step, g.
    destruct (get2 cells i j); reflexivity. }
  rewrite E; clear E.
  destruct (foldM_inv (fun done (s : list (list Z) * list (list Z)) =>
     let '(a, b) := s in
     (zlen a = nn /\ forall k, 0 <= k < nn -> NoDup (nthZ [] a k) /\
        forall p, In p (nthZ [] a k) <-> In p (nthZ [] np k) \/ (p = own i /\ In k done)) /\
     (zlen b = SIZE /\ forall p, 0 <= p < SIZE ->
        nthZ [] b p = nthZ [] ndp p ++ (if own i =? p then done else []))) g (row i) (np, ndp))
    as ((a & b) & E & (Ha & Ha') & (Hb & Hb')).
  - split; (split; [assumption|]).
    + intros k Hk; split; [apply Hnp; assumption|]. cbn; tauto.
    + intros p _; destruct (own i =? p); rewrite app_nil_r; reflexivity.
  - intros done k rest [a b] Hrow ((Ha & Ha') & (Hb & Hb')).
    assert (Hk : 0 <= k < nn).
    { apply (wf_nodes _ _ _ _ _ _ _ WF i); [assumption|]. rewrite Hrow; apply in_or_app; right; left; reflexivity. }
    unfold g. rewrite own_get by assumption. cbn [bind].
    rewrite (get_nthZ []) by lia. cbn [bind].
    rewrite (append_at_upd b) by lia.
    destruct (mem_spec (own i) (nthZ [] a k)) as [Hm|Hm]; cbn [bind].
    + eexists; split; [reflexivity|]. split; [split; [assumption|]|split; [rewrite zlen_upd; assumption|]].
      * intros k' Hk'. destruct (Ha' k' Hk') as (Hnd & Hin). split; [assumption|].
        intros p. rewrite Hin, in_app_iff. cbn.
        split; [tauto|]. intros [?|(-> & [?|[->|[]]])]; [tauto| tauto|].
        apply Hin; assumption.
      * intros p Hp. rewrite nthZ_upd by lia. destruct (Z.eqb_spec p (own i)).
        -- subst p. rewrite Hb' by lia. rewrite Z.eqb_refl, app_assoc; reflexivity.
        -- rewrite Hb' by lia. destruct (Z.eqb_spec (own i) p); [lia | reflexivity].
    + rewrite append_at_upd by lia. cbn [bind].
      eexists; split; [reflexivity|]. split; (split; [rewrite zlen_upd; assumption|]).
      * intros k' Hk'. destruct (Ha' k' Hk') as (Hnd & Hin).
        rewrite nthZ_upd by lia. destruct (Z.eqb_spec k' k) as [->|Hne].
        -- split.
           ++ apply (Permutation_NoDup (l := own i :: nthZ [] a k)); [apply Permutation_cons_append|].
              constructor; assumption.
           ++ intros p. rewrite !in_app_iff, Hin. cbn. intuition (subst; auto).
        -- split; [assumption|]. intros p; rewrite Hin, in_app_iff; cbn. intuition congruence.
      * intros p Hp. rewrite nthZ_upd by lia. destruct (Z.eqb_spec p (own i)).
        -- subst p. rewrite Hb' by lia. rewrite Z.eqb_refl, app_assoc; reflexivity.
        -- rewrite Hb' by lia. destruct (Z.eqb_spec (own i) p); [lia | reflexivity].
  - exists a, b. split; [exact E|]. split.
    + split; [exact Ha|]. intros k Hk. destruct (Ha' k Hk) as (Hnd & Hin). split; [exact Hnd|].
      intros p. rewrite Hin. destruct (Hnp k Hk) as (_ & Hold). rewrite Hold. split.
      * intros [[->|(c & Hc & Hkc & <-)]|(-> & Hki)].
        -- left; reflexivity.
        -- right; exists c; repeat split; auto; lia.
        -- right; exists i; repeat split; auto; unfold is_cell in Hi; lia.
      * intros [->|(c & Hc & Hkc & <-)]; [tauto|].
        destruct (Z.eq_dec c i) as [->|]; [tauto|]. left; right; exists c; repeat split; auto; lia.
    + split; [exact Hb|]. intros p Hp. rewrite Hb' by assumption.
      rewrite (Hndp p Hp). unfold is_cell in Hi.
      rewrite filter_range_succ by lia. rewrite map_app, concat_app. f_equal.
      destruct (own i =? p); cbn; [rewrite app_nil_r|]; reflexivity.
Qed.

Lemma zlen_empty : zlen (map (fun _ => @nil Z) (range SIZE)) = SIZE.
Proof. rewrite zlen_map, zlen_range; [reflexivity | pose proof (wf_size _ _ _ _ _ _ _ WF); lia]. Qed.
Lemma nthZ_empty p : nthZ [] (map (fun _ => @nil Z) (range SIZE)) p = [].
Proof.
  unfold nthZ. generalize (Z.to_nat p) as n. induction (range SIZE) as [|x l IH]; intros [|n]; cbn; auto.
Qed.

Lemma npart_loop_spec :
  exists np ndp cp,
    npart_loop cells epart nc dim (map (fun i => [i]) npart0) (map (fun _ => []) (range SIZE))
      (map (fun _ => []) (range SIZE)) = Ok (np, ndp, cp)
    /\ np_spec nc np /\ ndp_spec nc ndp /\ cp_spec nc cp.
Proof.
  unfold npart_loop.
  edestruct (foldM_range_inv (fun i (s : list (list Z) * list (list Z) * list (list Z)) =>
     let '(a, b, c) := s in np_spec i a /\ ndp_spec i b /\ cp_spec i c)) as (((a & b) & c) & E & H).
  4: { exists a, b, c. split; [exact E | exact H]. }
  - apply zlen_nonneg.
  - split; [|split].
    + split; [rewrite zlen_map; apply (wf_npart_len _ _ _ _ _ _ _ WF)|].
      intros k Hk. rewrite (nthZ_map _ 0) by (rewrite (wf_npart_len _ _ _ _ _ _ _ WF); lia).
      split; [repeat constructor; cbn; tauto|]. intros p; cbn; split; [intuition|].
      intros [->|(x & Hx & _)]; [tauto | lia].
    + split; [apply zlen_empty|]. intros p Hp. apply nthZ_empty.
    + split; [apply zlen_empty|]. intros p Hp. apply nthZ_empty.
  - intros i ((a & b) & c) Hi (Ha & Hb & Hc).
    destruct (npart_inner i a b) as (a' & b' & E & Ha' & Hb'); [exact Hi | assumption | assumption|].
    pose proof (wf_epart _ _ _ _ _ _ _ WF i Hi) as Ho. destruct Hc as (Hcl & Hc).
    rewrite E; cbn [bind]. rewrite own_get by exact Hi; cbn [bind].
    rewrite append_at_upd by lia; cbn [bind]. eexists; split; [reflexivity|].
    split; [assumption|]. split; [assumption|]. split; [rewrite zlen_upd; assumption|].
    intros p Hp. rewrite filter_range_succ by lia. rewrite nthZ_upd by lia.
    destruct (Z.eqb_spec p (own i)).
    + subst p; rewrite Z.eqb_refl, Hc by lia; reflexivity.
    + destruct (Z.eqb_spec (own i) p); [lia|]. rewrite app_nil_r; apply Hc; lia.
Qed.

(** ** loop 2 *)
Definition cpart_spec (np cpart : list (list Z)) : Prop :=
  zlen cpart = nc /\
  forall c, is_cell cells c -> NoDup (nthZ [] cpart c) /\
    (forall p, In p (nthZ [] cpart c) <-> p = own c \/ exists k, In k (row c) /\ In p (nthZ [] np k)).

Lemma cpart_node i l cpart :
  zlen cpart = nc -> is_cell cells i -> NoDup (nthZ [] cpart i) ->
  exists cpart', foldM (cpart_step i) l cpart = Ok cpart' /\ zlen cpart' = nc /\
    (forall c, 0 <= c -> c <> i -> nthZ [] cpart' c = nthZ [] cpart c) /\
    NoDup (nthZ [] cpart' i) /\
    (forall p, In p (nthZ [] cpart' i) <-> In p (nthZ [] cpart i) \/ In p l).
Proof.
  intros Hl Hi Hnd.
  destruct (foldM_inv (fun done cp => zlen cp = nc /\
    (forall c, 0 <= c -> c <> i -> nthZ [] cp c = nthZ [] cpart c) /\
    NoDup (nthZ [] cp i) /\
    (forall p, In p (nthZ [] cp i) <-> In p (nthZ [] cpart i) \/ In p done)) (cpart_step i) l cpart)
    as (cp & E & H); [| |exists cp; split; [exact E | exact H]].
  - repeat split; auto; cbn; tauto.
  - intros done q rest cp _ (H1 & H2 & H3 & H4). unfold is_cell in Hi.
    unfold cpart_step. rewrite (get_nthZ []) by lia. cbn [bind].
    destruct (mem_spec q (nthZ [] cp i)) as [Hm|Hm].
    + exists cp; split; [reflexivity|]. repeat split; auto.
      * intros Hp; apply H4 in Hp; rewrite in_app_iff; tauto.
      * intros Hp; rewrite in_app_iff in Hp; cbn in Hp. apply H4.
        destruct Hp as [|[|[<-|[]]]]; [tauto|tauto|]. apply H4; exact Hm.
    + rewrite append_at_upd by lia. eexists; split; [reflexivity|].
      split; [rewrite zlen_upd; assumption|]. split; [|split].
      * intros c Hc Hne. rewrite nthZ_upd_neq by lia. apply H2; lia.
      * rewrite nthZ_upd_eq by lia.
        apply (Permutation_NoDup (l := q :: nthZ [] cp i)); [apply Permutation_cons_append|].
        constructor; assumption.
      * intros p; rewrite nthZ_upd_eq by lia. rewrite !in_app_iff, H4. cbn; tauto.
Qed.

Lemma cpart_row np i l cpart :
  zlen np = nn -> (forall k, In k l -> 0 <= k < nn) ->
  zlen cpart = nc -> is_cell cells i -> NoDup (nthZ [] cpart i) ->
  exists cpart', foldM (fun cp k => do nk <- get np k; foldM (cpart_step i) nk cp) l cpart = Ok cpart'
    /\ zlen cpart' = nc /\
    (forall c, 0 <= c -> c <> i -> nthZ [] cpart' c = nthZ [] cpart c) /\
    NoDup (nthZ [] cpart' i) /\
    (forall p, In p (nthZ [] cpart' i) <-> In p (nthZ [] cpart i) \/ exists k, In k l /\ In p (nthZ [] np k)).
Proof.
  intros Hnp Hlr Hl Hi Hnd.
  destruct (foldM_inv (fun done cp => zlen cp = nc /\
    (forall c, 0 <= c -> c <> i -> nthZ [] cp c = nthZ [] cpart c) /\
    NoDup (nthZ [] cp i) /\
    (forall p, In p (nthZ [] cp i) <-> In p (nthZ [] cpart i) \/ exists k, In k done /\ In p (nthZ [] np k)))
    (fun cp k => do nk <- get np k; foldM (cpart_step i) nk cp) l cpart)
    as (cp & E & H); [| |exists cp; split; [exact E | exact H]].
  - repeat split; auto. intros [?|(k & [] & _)]; assumption.
  - intros done k rest cp Hd (H1 & H2 & H3 & H4).
    assert (Hk : 0 <= k < nn) by (apply Hlr; rewrite Hd; apply in_or_app; right; left; reflexivity).
    rewrite (get_nthZ []) by lia. cbn [bind].
    destruct (cpart_node i (nthZ [] np k) cp) as (cp' & E & G1 & G2 & G3 & G4); auto.
    exists cp'; split; [exact E|]. split; [assumption|]. split; [|split; [assumption|]].
    + intros c Hc Hne; rewrite G2, H2 by assumption; reflexivity.
    + intros p. rewrite G4, H4. split.
      * intros [[?|(k' & Hk' & Hp)]|Hp]; [tauto| |].
        -- right; exists k'; rewrite in_app_iff; tauto.
        -- right; exists k; rewrite in_app_iff; cbn; tauto.
      * intros [?|(k' & Hk' & Hp)]; [tauto|]. rewrite in_app_iff in Hk'; cbn in Hk'.
        destruct Hk' as [|[<-|[]]]; [left; right; eauto | tauto].
Qed.

Lemma cpart_loop_spec np :
  zlen np = nn ->
  exists cpart, cpart_loop cells np nc dim (map (fun i => [i]) epart) = Ok cpart /\ cpart_spec np cpart.
Proof.
  intros Hnp. unfold cpart_loop.
  edestruct (foldM_range_inv (fun i cp => zlen cp = nc /\
     (forall c, is_cell cells c -> NoDup (nthZ [] cp c) /\
       (forall p, In p (nthZ [] cp c) <-> p = own c \/ (c < i /\ exists k, In k (row c) /\ In p (nthZ [] np k))))))
    as (cp & E & H1 & H2).
  4: { exists cp; split; [exact E|]. split; [exact H1|]. intros c Hc. destruct (H2 c Hc) as (Hnd & Hin).
       split; [exact Hnd|]. intros p; rewrite Hin. unfold is_cell in Hc. intuition lia. }
  - apply zlen_nonneg.
  - split; [rewrite zlen_map; apply (wf_epart_len _ _ _ _ _ _ _ WF)|].
    intros c Hc. rewrite (nthZ_map _ 0) by (rewrite (wf_epart_len _ _ _ _ _ _ _ WF); exact Hc).
    split; [repeat constructor; cbn; tauto|]. intros p; cbn. unfold is_cell in Hc. unfold owner. intuition (try lia).
  - intros i cp Hi (H1 & H2).
    rewrite (row_loop (fun cp k => do nk <- get np k; foldM (cpart_step i) nk cp)) by exact Hi.
    destruct (cpart_row np i (row i) cp) as (cp' & E & G1 & G2 & G3 & G4); auto.
    + intros k Hk; apply (wf_nodes _ _ _ _ _ _ _ WF i); assumption.
    + apply H2; exact Hi.
    + exists cp'; split; [exact E|]. split; [assumption|]. intros c Hc.
      destruct (Z.eq_dec c i) as [->|Hne].
      * split; [assumption|]. intros p; rewrite G4. destruct (H2 i Hi) as (_ & Hin). rewrite Hin.
        intuition lia.
      * rewrite G2 by (unfold is_cell in Hc; lia). destruct (H2 c Hc) as (Hnd & Hin). split; [assumption|].
        intros p; rewrite Hin. intuition lia.
Qed.

(** ** loop 3 *)
Definition in_size (p : Z) := 0 <= p < SIZE.
Definition neigh_spec (np ns : list (list Z)) : Prop :=
  zlen ns = SIZE /\ forall p q, in_size p ->
    (In q (nthZ [] ns p) <-> exists k, 0 <= k < nn /\ 1 < zlen (nthZ [] np k) /\
                                     In p (nthZ [] np k) /\ In q (nthZ [] np k)).

Lemma neighsub_loop_spec np :
  zlen np = nn ->
  (forall k p, 0 <= k < nn -> 1 < zlen (nthZ [] np k) -> In p (nthZ [] np k) -> in_size p) ->
  exists ns, neighsub_loop np nn (map (fun _ => []) (range SIZE)) = Ok ns /\ neigh_spec np ns.
Proof.
  intros Hl Hr. unfold neighsub_loop.
  edestruct (foldM_range_inv (fun i ns => zlen ns = SIZE /\ forall p q, in_size p ->
     (In q (nthZ [] ns p) <-> exists k, 0 <= k < i /\ 1 < zlen (nthZ [] np k) /\
                                     In p (nthZ [] np k) /\ In q (nthZ [] np k)))) as (ns & E & H).
  4: { exists ns; split; [exact E | exact H]. }
  - apply zlen_nonneg.
  - split; [apply zlen_empty|]. intros p q Hp; rewrite nthZ_empty; cbn. split; [tauto|].
    intros (k & Hk & _); lia.
  - intros i ns Hi (H1 & H2). rewrite (get_nthZ []) by lia. cbn [bind].
    set (r := nthZ [] np i) in *.
    destruct (Z.ltb_spec 1 (zlen r)) as [Hlt|Hge].
    + assert (Hrr : forall p, In p r -> in_size p) by (intros; apply (Hr i); auto).
      destruct (foldM_inv (fun done ns' => zlen ns' = SIZE /\ forall p q, in_size p ->
         (In q (nthZ [] ns' p) <-> In q (nthZ [] ns p) \/ (In p done /\ In q r)))
         (fun ns p => extend_at ns p r) r ns) as (ns' & E & G1 & G2).
      * split; [assumption|]. cbn; tauto.
      * intros done x rest ns' Hd (G1 & G2).
        assert (Hx : in_size x) by (apply Hrr; rewrite Hd; apply in_or_app; right; left; reflexivity).
        unfold in_size in Hx. rewrite extend_at_upd by lia. eexists; split; [reflexivity|].
        split; [rewrite zlen_upd; assumption|]. intros p q Hp. unfold in_size in Hp.
        rewrite nthZ_upd by lia. rewrite in_app_iff. cbn. destruct (Z.eqb_spec p x) as [->|Hne].
        -- rewrite in_app_iff, G2 by exact Hp. tauto.
        -- rewrite G2 by exact Hp. intuition congruence.
      * exists ns'; split; [exact E|]. split; [assumption|]. intros p q Hp. rewrite G2, H2 by assumption.
        split.
        -- intros [(k & Hk & H)|(Ha & Hb)]; [exists k; split; [lia | exact H]|].
           exists i; repeat split; auto; lia.
        -- intros (k & Hk & H). destruct (Z.eq_dec k i) as [->|]; [right; tauto|].
           left; exists k; split; [lia | exact H].
    + exists ns; split; [reflexivity|]. split; [assumption|]. intros p q Hp. rewrite H2 by assumption. split.
      * intros (k & Hk & H); exists k; split; [lia | exact H].
      * intros (k & Hk & H). destruct (Z.eq_dec k i) as [->|]; [exfalso; unfold r in *; lia|].
        exists k; split; [lia | exact H].
Qed.

(** ** loop 4 *)
Definition multi (np : list (list Z)) (c : Z) : Prop := exists k, In k (row c) /\ 1 < zlen (nthZ [] np k).
Definition halo_spec (np halo : list (list Z)) : Prop :=
  zlen halo = SIZE /\ forall i c, in_size i ->
    (In c (nthZ [] halo i) <-> is_cell cells c /\ own c = i /\ multi np c).

Lemma halo_cell np i c halo :
  zlen np = nn -> (forall k, 0 <= k < nn -> 1 <= zlen (nthZ [] np k)) ->
  zlen halo = SIZE -> in_size i -> is_cell cells c ->
  exists a halo', foldM (halo_cell_step cells np dim i c) (range (dim + 1)) (0, halo) = Ok (a, halo') /\
    zlen halo' = SIZE /\ (forall i', 0 <= i' -> i' <> i -> nthZ [] halo' i' = nthZ [] halo i') /\
    (forall x, In x (nthZ [] halo' i) <-> In x (nthZ [] halo i) \/ (x = c /\ multi np c)).
Proof.
  intros Hnp Hpos Hl Hi Hc.
  set (g := fun (s : Z * list (list Z)) n =>
    let '(a, halo) := s in
    do r <- get np n;
    let a' := a + zlen r in
    if dim + 1 <? a' then (do halo' <- append_at halo i c; ret (a', halo')) else ret (a', halo)).
  assert (E : foldM (halo_cell_step cells np dim i c) (range (dim + 1)) (0, halo) = foldM g (row c) (0, halo)).
  { rewrite <- row_loop by assumption. apply foldM_ext. intros [a b] j _. unfold halo_cell_step, g.
    destruct (get2 cells c j); reflexivity. }
  rewrite E; clear E.
  assert (Hrl : zlen (row c) = dim + 1) by (apply (wf_rows _ _ _ _ _ _ _ WF); assumption).
  unfold in_size in Hi.
  destruct (foldM_inv (fun done (s : Z * list (list Z)) => let '(a, h) := s in
      zlen done <= a /\ (zlen done < a <-> exists k, In k done /\ 1 < zlen (nthZ [] np k)) /\
      zlen h = SIZE /\ (forall i', 0 <= i' -> i' <> i -> nthZ [] h i' = nthZ [] halo i') /\
      (forall x, In x (nthZ [] h i) <-> In x (nthZ [] halo i) \/ (x = c /\ dim + 1 < a))) g (row c) (0, halo))
    as ((a & h) & E & H1 & H2 & H3 & H4 & H5).
  - cbn. split; [lia|]. split; [split; [lia | intros (k & [] & _)]|]. repeat split; auto.
    intros [?|(_ & Hd)]; [assumption|]. destruct (wf_dim _ _ _ _ _ _ _ WF); lia.
  - intros done k rest [a h] Hd (H1 & H2 & H3 & H4 & H5).
    assert (Hk : 0 <= k < nn).
    { apply (wf_nodes _ _ _ _ _ _ _ WF c); [assumption|]. rewrite Hd; apply in_or_app; right; left; reflexivity. }
    pose proof (Hpos k Hk) as Hp. unfold g. rewrite (get_nthZ []) by lia. cbn [bind].
    set (L := zlen (nthZ [] np k)) in *.
    assert (Hmono : zlen (done ++ [k]) <= a + L) by (rewrite zlen_app, zlen_cons, zlen_nil; lia).
    assert (Hex : zlen (done ++ [k]) < a + L <-> exists k', In k' (done ++ [k]) /\ 1 < zlen (nthZ [] np k')).
    { rewrite zlen_app, zlen_cons, zlen_nil. split.
      - intros Hlt. destruct (Z.lt_ge_cases (zlen done) a) as [Hlt'|Hge].
        + apply H2 in Hlt' as (k' & Hk' & Hx). exists k'; rewrite in_app_iff; tauto.
        + exists k; rewrite in_app_iff; cbn; split; [tauto | fold L; lia].
      - intros (k' & Hk' & Hx). rewrite in_app_iff in Hk'; cbn in Hk'. destruct Hk' as [Hk'|[<-|[]]].
        + assert (zlen done < a) by (apply H2; eauto). lia.
        + fold L in Hx; lia. }
    destruct (Z.ltb_spec (dim + 1) (a + L)) as [Hlt|Hge].
    + rewrite append_at_upd by lia. cbn [bind]. eexists; split; [reflexivity|].
      split; [exact Hmono|]. split; [exact Hex|]. split; [rewrite zlen_upd; assumption|]. split.
      * intros i' Hi' Hne. rewrite nthZ_upd_neq by lia. apply H4; lia.
      * intros x. rewrite nthZ_upd_eq by lia. rewrite in_app_iff, H5. cbn. intuition lia.
    + eexists; split; [reflexivity|].
      split; [exact Hmono|]. split; [exact Hex|]. split; [assumption|]. split; [assumption|].
      intros x. rewrite H5. intuition lia.
  - exists a, h. split; [exact E|]. split; [assumption|]. split; [assumption|].
    intros x. rewrite H5. rewrite Hrl in H2. unfold multi. rewrite <- H2. tauto.
Qed.

Lemma halo_loop_spec np cp :
  zlen np = nn -> (forall k, 0 <= k < nn -> 1 <= zlen (nthZ [] np k)) -> cp_spec nc cp ->
  exists halo, halo_loop cells np cp SIZE dim (map (fun _ => []) (range SIZE)) = Ok halo /\ halo_spec np halo.
Proof.
  intros Hnp Hpos (Hcl & Hcp). unfold halo_loop.
  edestruct (foldM_range_inv (fun n h => zlen h = SIZE /\ forall i c, in_size i ->
    (In c (nthZ [] h i) <-> i < n /\ is_cell cells c /\ own c = i /\ multi np c))) as (h & E & H1 & H2).
  4: { exists h; split; [exact E|]. split; [exact H1|]. intros i c Hi. rewrite H2 by exact Hi.
       unfold in_size in Hi. intuition lia. }
  - pose proof (wf_size _ _ _ _ _ _ _ WF); lia.
  - split; [apply zlen_empty|]. intros i c Hi; rewrite nthZ_empty; cbn. unfold in_size in Hi. intuition lia.
  - intros i h Hi (H1 & H2). rewrite (get_nthZ []) by lia. cbn [bind].
    rewrite Hcp by assumption. set (l := filter (fun c => own c =? i) (range nc)).
    assert (Hl : forall c, In c l <-> is_cell cells c /\ own c = i).
    { intros c; unfold l. rewrite filter_In, in_range. unfold is_cell. lia. }
    edestruct (foldM_inv (fun done h' => zlen h' = SIZE /\
        (forall i', 0 <= i' -> i' <> i -> nthZ [] h' i' = nthZ [] h i') /\
        (forall c, In c (nthZ [] h' i) <-> In c (nthZ [] h i) \/ (In c done /\ multi np c)))) as (h' & E & G1 & G2 & G3).
    3: { exists h'; split; [exact E|]. split; [exact G1|]. intros i' c Hi'.
         destruct (Z.eq_dec i' i) as [->|Hne].
         - rewrite G3, H2, Hl by exact Hi'. unfold is_cell. intuition lia.
         - rewrite G2 by (unfold in_size in Hi'; lia). rewrite H2 by exact Hi'. intuition lia. }
    + repeat split; auto; cbn; tauto.
    + intros done c rest h' Hd (G1 & G2 & G3).
      assert (Hc : is_cell cells c) by (apply Hl; rewrite Hd; apply in_or_app; right; left; reflexivity).
      destruct (halo_cell np i c h') as (a & h'' & E & K1 & K2 & K3); auto.
      rewrite E. cbn [bind]. eexists; split; [reflexivity|]. split; [assumption|]. split.
      * intros i' Hi' Hne. rewrite K2, G2 by lia. reflexivity.
      * intros x. rewrite K3, G3, in_app_iff. cbn. intuition (subst; auto).
Qed.

(** ** everything together *)
Record parts_ok (p : parts) : Prop := {
  po_np : np_spec nc (p_npart p);
  po_ndp : ndp_spec nc (p_node_part p);
  po_cp : cp_spec nc (p_cell_part p);
  po_cpart : cpart_spec (p_npart p) (p_cpart p);
  po_neigh : neigh_spec (p_npart p) (p_neighsub p);
  po_halo : halo_spec (p_npart p) (p_halo p) }.

Lemma create_npart_cpart_spec :
  (forall k, 0 <= k < nn -> in_size (nthZ 0 npart0 k) \/ (forall c, is_cell cells c -> ~ In k (row c))) ->
  exists p, create_npart_cpart cells npart0 epart nn nc SIZE dim = Ok p /\ parts_ok p.
Proof.
  intros Hr. unfold create_npart_cpart.
  destruct npart_loop_spec as (np & ndp & cp & E & Hnp & Hndp & Hcp).
  rewrite E; cbn [bind]. pose proof Hnp as (Hnl & Hn).
  destruct (cpart_loop_spec np Hnl) as (cpart & E2 & Hcpart). rewrite E2; cbn [bind].
  destruct (neighsub_loop_spec np Hnl) as (ns & E3 & Hns).
  { intros k p Hk Hlen Hp. destruct (Hn k Hk) as (Hnd & Hin).
    assert (Hcell : forall c, 0 <= c < nc -> own c = p -> in_size p).
    { intros c Hc <-. apply (wf_epart _ _ _ _ _ _ _ WF); exact Hc. }
    apply Hin in Hp as [->|(c & Hc & Hk' & Ho)]; [|eauto].
    destruct (Hr k Hk) as [|Hno]; [assumption|]. exfalso.
    destruct (nthZ [] np k) as [|a [|b t]] eqn:El.
    - rewrite zlen_nil in Hlen; lia.
    - rewrite zlen_cons, zlen_nil in Hlen; lia.
    - assert (Ha : In a (a :: b :: t)) by (left; reflexivity).
      assert (Hb : In b (a :: b :: t)) by (right; left; reflexivity).
      apply Hin in Ha as [Ha|(c & Hc & Hkc & _)]; [|eapply Hno; eauto].
      apply Hin in Hb as [Hb|(c & Hc & Hkc & _)]; [|eapply Hno; eauto].
      subst. inversion Hnd as [|? ? Hni]; subst; apply Hni; left; congruence. }
  rewrite E3; cbn [bind].
  destruct (halo_loop_spec np cp Hnl) as (halo & E4 & Hh); [|assumption|].
  { intros k Hk. destruct (Hn k Hk) as (_ & Hin).
    assert (Hx : In (nthZ 0 npart0 k) (nthZ [] np k)) by (apply Hin; left; reflexivity).
    destruct (nthZ [] np k); [destruct Hx|]. rewrite zlen_cons; pose proof (zlen_nonneg l); lia. }
  rewrite E4; cbn [bind]. eexists; split; [reflexivity|]. constructor; assumption.
Qed.
End Loops.
