(** * Properties_streamer: C47-C49, C61, C62 (streamer model).  Vocabulary: [Spec_streamer], [Spec_fvm]. *)
From Coq Require Import String Reals Rpower Lra ZifyBool.
From Verif Require Import Py PyLemmas Model_part Spec_part Model_conn Spec_conn Model_geom Spec_geom Model_interp Spec_interp Model_fvm Spec_fvm Model_streamer Spec_streamer Proofs_fvm1 Proofs_fvm2 Proofs_streamer Proofs_streamer2.
Open Scope Z_scope.

(** C47: at every face the velocity is anti-parallel to the field, zero without field, of the speed given by the piecewise law, whatever it was before; field and velocity of a cell are the means over its faces *)
Theorem C47_drift_velocity : forall dim Ef old faceid, 0 <= dim -> zlen old = zlen Ef -> face_rows dim (zlen Ef) faceid ->
  exists vf vc Ec, compute_velocity Ef old faceid dim = Ok (vf, vc, Ec) /\ zlen vf = zlen Ef /\ zlen vc = zlen faceid /\ zlen Ec = zlen faceid /\
  (forall f, 0 <= f < zlen Ef -> let e := nthZ vzero Ef f in let v := nthZ vzero vf f in
     (e = vzero -> v = vzero) /\ (e <> vzero -> antiparallel v e) /\ vlen v = drift_speed (vlen e / N_gas)) /\
  (forall c, 0 <= c < zlen faceid -> nthZ vzero vc c = barycentre (map (nthZ vzero vf) (nthZ [] faceid c)) /\ nthZ vzero Ec c = barycentre (map (nthZ vzero Ef) (nthZ [] faceid c))).
Proof. exact c47. Qed.
Print Assumptions C47_drift_velocity.

(** C48: diffusion.  Each face adds to its first cell what it takes from its second; the total is what the faces with label <> 0 bring *)
Theorem C48_diffusion_conservative : forall dim X vel Ef grads, wf_fvdata dim X -> zlen grads = zlen (fv_cellid X) -> zlen Ef = zlen (fv_cellid X) -> zlen vel = zlen (fv_cellid X) ->
  exists r, dissipative_streamer vel Ef grads (fv_cellid X) (fv_normal X) (fv_name X) (zlen (fv_centerc X)) = Ok r /\ zlen r = zlen (fv_centerc X) /\
  (forall c, 0 <= c < zlen (fv_centerc X) -> nthZ 0%R r c = rsum (map (leaves X (electron_diffusion X vel Ef grads) c) (range (zlen (fv_cellid X))))) /\
  rsum r = rsum (map (electron_diffusion X vel Ef grads) (filter (fun f => negb (fv_label X f =? 0)) (range (zlen (fv_cellid X))))) /\
  (forall e v, (0 <= electron_diffusivity e v)%R).
Proof.
  intros dim X vel Ef grads WF H1 H2 H3. destruct (c48_diffusion dim X WF vel Ef grads H1 H2 H3) as (r & E & L & P & S). exists r. split; [exact E|]. split; [exact L|]. split; [exact P|]. split; [exact S | exact diffusivity_nonneg].
Qed.
Print Assumptions C48_diffusion_conservative.
(** source: the same for electrons and ions, never negative for non-negative electron densities, zero where nothing moves *)
Theorem C48_source_same : forall ne vel E center br, zlen vel = zlen ne -> zlen E = zlen ne -> zlen center = zlen ne ->
  exists src, source_streamer ne vel E center br = Ok src /\ zlen src = zlen ne /\
  forall c, 0 <= c < zlen ne -> let s := nthZ (0, 0)%R src c in fst s = snd s /\ ((0 <= nthZ 0 ne c)%R -> (0 <= fst s)%R) /\
    (nthZ vzero vel c = vzero -> br = 0 -> fst s = 0%R).
Proof. exact c48_source. Qed.
Print Assumptions C48_source_same.
(** one step: the net charge changes by the fluxes through the outer faces only; ion densities never decrease *)
Theorem C48_charge_balance : forall M A grads Ef vf Ec vc ni, let X := st_X M in let nf := zlen (fv_cellid X) in let nc := zlen (fv_centerc X) in
  wf_fvdata (st_dim M) X -> wf_lists (st_dim M) X (st_L M) -> wf_advected X A vf ->
  zlen grads = nf -> zlen Ef = nf -> zlen Ec = nc -> zlen vc = nc -> zlen ni = nc -> zlen (st_vol M) = nc -> (forall c, 0 <= c < nc -> (0 < nthZ 0 (st_vol M) c)%R) ->
  (forall t, In t needed_terms -> In t (st_terms M)) ->
  exists r ne' ni', update_solution_streamer M A grads Ef vf Ec vc ni = Ok r /\ r = combine (map Some ne') (map Some ni') /\ zlen ne' = nc /\ zlen ni' = nc /\
  net_charge (st_vol M) ne' ni' = (net_charge (st_vol M) (ad_c A) ni
     + st_dt M * (rsum (map (electron_diffusion X vf Ef grads) (filter (fun f => negb (fv_label X f =? 0)%Z) (range nf))) - rsum (map (fv_flux (st_dim M) (st_order M) X A vf) (outer_faces (st_L M)))))%R /\
  ((0 <= st_dt M)%R -> (forall x, In x (ad_c A) -> (0 <= x)%R) -> forall c, 0 <= c < nc -> (nthZ 0 ni c <= nthZ 0 ni' c)%R).
Proof. exact c48_step. Qed.
Print Assumptions C48_charge_balance.
(** the initial states: positive densities, no charge *)
Theorem C48_initially_neutral : forall center Pinit x, In x (initialisation_streamer center Pinit) \/ In x (initialisation_streamer_3d center Pinit) ->
  let '(ne, ni, _) := x in ne = ni /\ (1000000000 <= ne)%R.
Proof.
  intros center Pinit x H. assert (B : forall b z c, (1000000000 <= b)%R -> (1000000000 <= initial_density b z c)%R).
  { intros b z c Hb. unfold initial_density. pose proof (exp_pos (-1 * ((px c - 2 / 10) ^ 2 + (py c - 25 / 100) ^ 2 + z) / (1 / 100) ^ 2)) as P. nra. }
  destruct H as [H|H]; apply in_map_iff in H; destruct H as (c & <- & _); (split; [reflexivity|]); apply B; lra.
Qed.
Print Assumptions C48_initially_neutral.

(** C49: the local and the global right-hand side hold the same charge, cell i at position i and at position loctoglob[i] *)
Theorem C49_local_and_global : forall ne ni loctoglob loc glob, zlen ni = zlen ne -> zlen loctoglob = zlen ne -> zlen loc = zlen ne -> NoDup loctoglob -> (forall g, In g loctoglob -> 0 <= g < zlen glob) ->
  exists loc' glob', update_rhs_loc ne ni loctoglob loc = Ok loc' /\ update_rhs_glob ne ni loctoglob glob = Ok glob' /\ zlen loc' = zlen loc /\ zlen glob' = zlen glob /\
  (forall i, 0 <= i < zlen ne -> nthZ 0%R loc' i = poisson_rhs (nthZ 0%R ne i) (nthZ 0%R ni i) /\ nthZ 0%R glob' (nthZ 0 loctoglob i) = nthZ 0%R loc' i) /\
  (forall g, 0 <= g < zlen glob -> ~ In g loctoglob -> nthZ 0%R glob' g = nthZ 0%R glob g).
Proof.
  intros ne ni ltg loc glob H1 H2 H3 ND HB. destruct (rhs_loc_ok ne ni ltg loc) as (l & E1 & L1 & P1 & _); [exact H1 | lia|]. destruct (rhs_glob_ok ne ni ltg glob H1 H2 ND HB) as (g & E2 & L2 & P2 & Q2).
  exists l, g. split; [exact E1|]. split; [exact E2|]. split; [exact L1|]. split; [exact L2|]. split; [|exact Q2]. intros i Hi. split; [apply P1, Hi | rewrite P2, P1 by exact Hi; reflexivity].
Qed.
Print Assumptions C49_local_and_global.
(** all ranks, after any number of calls: what rank 0 gets has, at every global cell, the present charge of the rank owning it *)
Theorem C49_rank0_right_hand_side : forall dim SIZE cells nodes ghost npart0 epart pa (earlier : Z -> list (list R * list R)) (ne ni : Z -> list R),
  wf_input dim SIZE cells nodes ghost npart0 epart -> metis_contract cells nodes npart0 epart -> readmesh_parallel dim SIZE cells nodes ghost npart0 epart = Ok pa ->
  let l2g r := rf_loctoglob (file_of empty_file pa r) in let calls r := earlier r ++ [(ne r, ni r)] in
  (forall r c, 0 <= r < SIZE -> In c (calls r) -> zlen (fst c) = zlen (l2g r) /\ zlen (snd c) = zlen (l2g r)) ->
  exists arrays, mapM (fun r => rhs_after (zlen cells) (l2g r) (calls r)) (range SIZE) = Ok arrays /\
  let rhs := reduce_sum (zlen cells) arrays in zlen rhs = zlen cells /\
  (forall r i, 0 <= r < SIZE -> 0 <= i < zlen (l2g r) -> nthZ 0%R rhs (nthZ 0 (l2g r) i) = poisson_rhs (nthZ 0%R (ne r) i) (nthZ 0%R (ni r) i)) /\
  (forall g, is_cell cells g -> exists r i, 0 <= r < SIZE /\ 0 <= i < zlen (l2g r) /\ nthZ 0 (l2g r) i = g).
Proof. exact c49_ranks. Qed.
Print Assumptions C49_rank0_right_hand_side.

(** C61: the time step is positive and satisfies the CFL bound of every cell whose (mean) field is not zero, and is the largest such step up to 1e6 *)
Theorem C61_time_step : forall dim vel E normal mesure volume faceid cfl, wf_timestep dim vel normal mesure volume faceid -> zlen E = zlen faceid -> (0 < cfl)%R ->
  exists dt, time_step_streamer vel E cfl normal mesure volume faceid dim = Ok (Some dt) /\ (0 < dt <= 1000000)%R /\
  (forall i, 0 <= i < zlen faceid -> nthZ vzero E i <> vzero -> (0 <= streamer_speed vel E normal volume faceid i /\ dt * streamer_speed vel E normal volume faceid i <= cfl * nthZ 0 volume i)%R) /\
  (dt = 1000000%R \/ exists i, 0 <= i < zlen faceid /\ nthZ vzero E i <> vzero /\ (streamer_speed vel E normal volume faceid i <> 0)%R /\ dt = (cfl * nthZ 0 volume i / streamer_speed vel E normal volume faceid i)%R).
Proof. intros dim vel E normal mesure volume faceid cfl WT HE Hc. exact (c61 dim vel E normal mesure volume faceid WT HE cfl Hc). Qed.
Print Assumptions C61_time_step.

(** C62: with the default terms, or a list naming source and dissipation, every term the update reads exists; otherwise every update raises AttributeError *)
Theorem C62_terms : forall given,
  ((forall t, In t needed_terms -> In t (streamer_terms given)) <-> match given with None => True | Some l => In "source"%string l /\ In "dissipation"%string l end) /\
  forall M A grads Ef vf Ec vc ni, st_terms M = streamer_terms given -> ~ (forall t, In t needed_terms -> In t (streamer_terms given)) -> update_solution_streamer M A grads Ef vf Ec vc ni = Err AttributeError.
Proof.
  intros given. split.
  - destruct given as [l|]; [|split; [trivial|]; intros _ t Ht; cbn in Ht; repeat (destruct Ht as [<- | Ht]); try contradiction; cbn; auto 6]. cbn [streamer_terms]. split.
    + intros H. assert (K : forall t, t <> "convective"%string -> In t needed_terms -> In t l) by (intros t Nt It; specialize (H t It); apply in_app_iff in H; destruct H as [H|[H|[]]]; [exact H | congruence]).
      split; apply K; try discriminate; cbn; auto.
    + intros (S & D) t Ht. cbn in Ht. apply in_app_iff. destruct Ht as [<- |[<- |[<- |[]]]]; [right; left; reflexivity | left; exact D | left; exact S].
  - intros M A grads Ef vf Ec vc ni E H. unfold update_solution_streamer. cbv zeta. rewrite E.
    destruct (forallb _ _) eqn:F; [|reflexivity]. exfalso. apply H. intros t Ht. rewrite forallb_forall in F. specialize (F t Ht). apply existsb_exists in F. destruct F as (t' & I & Q). apply String.eqb_eq in Q. subst. exact I.
Qed.
Print Assumptions C62_terms.
