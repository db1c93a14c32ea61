(** * Proofs_run5: the loop on all the ranks. *)
From Coq Require Import Reals Lra Permutation Sorted.
From Verif Require Import Py PyLemmas Model_part Spec_part Model_label Model_conn Spec_conn Proofs_conn1 Proofs_conn2 Model_geom Spec_geom Proofs_geom1 Proofs_geom2 Proofs_geom3
  Model_interp Spec_interp Properties_interp Model_fvm Spec_fvm Proofs_fvm1 Proofs_fvm2 Model_bc Spec_bc Proofs_bc2 Model_domain Spec_domain Proofs_domain1 Proofs_domain4 Model_parallel Spec_parallel Proofs_parallel1
  Properties_parallel Properties_fvm Model_comm Model_run Spec_run Proofs_run1 Proofs_run2 Proofs_run3 Proofs_run4.
Open Scope Z_scope.

(** mapM over the ranks with a property of each result *)
Lemma mapM_range_ex {A} (d : A) (f : Z -> res A) (P : Z -> A -> Prop) n : 0 <= n -> (forall r, 0 <= r < n -> exists a, f r = Ok a /\ P r a) ->
  exists l, mapM f (range n) = Ok l /\ zlen l = n /\ forall r, 0 <= r < n -> P r (nthZ d l r).
Proof.
  intros Hn H. destruct (mapM_total f (range n)) as (l & E). { intros r Hr. apply in_range in Hr. destruct (H r Hr) as (a & Ea & _). exists a. exact Ea. }
  exists l. split; [exact E|]. assert (L : zlen l = n) by (rewrite (mapM_zlen _ _ _ E), zlen_range by exact Hn; reflexivity). split; [exact L|].
  intros r Hr. destruct (H r Hr) as (a & Ea & Pa). assert (X := mapM_nthZ f (range n) l 0 d r E ltac:(rewrite zlen_range by exact Hn; exact Hr)). rewrite nthZ_range in X by exact Hr. rewrite Ea in X. injection X as <-. exact Pa.
Qed.

Lemma get_In {A} (l : list A) x : In x l -> exists r, 0 <= r < zlen l /\ get l r = Ok x.
Proof. intros H. destruct (In_nthZ x _ _ H) as (r & Hr & E). exists r. split; [exact Hr|]. rewrite (get_nthZ x) by exact Hr. rewrite E. reflexivity. Qed.
(** the minimum over the ranks *)
Lemma fold_omin l : forall x, exists y, fold_left omin (map Some l) (Some x) = Some y /\ (y = x \/ In y l) /\ (y <= x)%R /\ forall z, In z l -> (y <= z)%R.
Proof.
  induction l as [|a l IH]; intros x; cbn [map fold_left].
  - exists x. split; [reflexivity|]. split; [auto|]. split; [lra|]. intros z [].
  - destruct (IH (Rmin x a)) as (y & E & C & L1 & L2). exists y. split; [exact E|]. pose proof (Rmin_l x a). pose proof (Rmin_r x a). split; [|split; [lra|]].
    + destruct C as [->|C]; [|right; right; exact C]. unfold Rmin. destruct (Rle_dec x a); [left; reflexivity | right; left; reflexivity].
    + intros z [->|Hz]; [lra | apply L2; exact Hz].
Qed.
Lemma allreduce_ok (l : list (option R)) : 0 < zlen l -> (forall i, 0 <= i < zlen l -> exists x, nthZ None l i = Some x) ->
  exists y, allreduce_min l = Some y /\ (exists i, 0 <= i < zlen l /\ nthZ None l i = Some y) /\ forall i x, 0 <= i < zlen l -> nthZ None l i = Some x -> (y <= x)%R.
Proof.
  intros HL HS. assert (E : exists l', l = map Some l'). { exists (map (fun o => match o with Some x => x | None => 0%R end) l). rewrite map_map. rewrite <- (map_id l) at 1. apply map_ext_in. intros o Ho. destruct (In_nthZ None _ _ Ho) as (i & Hi & <-). destruct (HS i Hi) as (x & ->). reflexivity. }
  destruct E as (l' & ->). destruct l' as [|x l']; [cbn in HL; lia|]. cbn [map allreduce_min]. destruct (fold_omin l' x) as (y & E & C & L1 & L2). exists y. split; [exact E|]. split.
  - assert (HI : In (Some y) (map Some (x :: l'))) by (apply in_map; destruct C as [->|C]; [left; reflexivity | right; exact C]). destruct (In_nthZ None _ _ HI) as (i & Hi & Ei). exists i. split; [exact Hi | exact Ei].
  - intros i z Hi Ez. assert (HI : In (Some z) (map Some (x :: l'))) by (rewrite <- Ez; apply nthZ_In; exact Hi). apply in_map_iff in HI as (z' & Ez' & HI). injection Ez' as ->. destruct HI as [->|HI]; [exact L1 | apply L2; exact HI].
Qed.

Lemma largest_unique cells nodes U cfl a b : largest_step cells nodes U cfl a -> largest_step cells nodes U cfl b -> a = b.
Proof. intros (A1 & A2) (B1 & B2). apply Rle_antisym; [apply B2; exact A1 | apply A2; exact B1]. Qed.

Section Ranks.
Context (dim SIZE : Z) (cells : list (list Z)) (nodes : list pt) (labels npart0 epart : list Z) (st : setting).
Hypothesis VM : valid_mesh dim cells nodes labels.
Hypothesis VS : valid_split dim SIZE cells nodes npart0 epart.
Notation Ds := (se_domains st).
Notation Dr := (domain_of (se_domains st)).
Hypothesis RP : represents dim SIZE cells nodes labels epart Ds.
Hypothesis CS : forall r, 0 <= r < SIZE -> consistent dim (Dr r).
Hypothesis HX : 1 < SIZE -> forall (V : Type) (d : V) (X : Z -> V) (w : list (list V)), values_of d SIZE Ds X w -> exists halo, update_halo_value SIZE (se_comms st) w = Ok halo /\ halo_values_of d SIZE Ds X halo.
Context (bc : list (loc * bctype)) (vs : list (loc * bcval)) (U : pt) (cfl : R).
Hypothesis BV : bc_valid dim bc vs.
Hypothesis HCFL : (0 < cfl)%R.
Notation PAr := (rp_part _ _ _ _ _ _ _ RP).

Lemma size_pos : 1 <= SIZE. Proof. exact (vs_size _ _ _ _ _ _ VS). Qed.
Lemma get_domain r : 0 <= r < SIZE -> get Ds r = Ok (Dr r).
Proof. intros Hr. unfold domain_of. apply get_nthZ. rewrite (rp_count _ _ _ _ _ _ _ RP). exact Hr. Qed.
Lemma exchange_ok {V} (d : V) X w : values_of d SIZE Ds X w -> exists halo, exchange SIZE (se_comms st) w = Ok halo /\ halo_values_of d SIZE Ds X halo.
Proof.
  intros HV. unfold exchange. destruct (Z.eqb_spec SIZE 1) as [E1|N1]; [|apply HX; [pose proof size_pos; lia | exact HV]].
  destruct (vs_alone _ _ _ _ _ _ VS E1) as (NC & _). destruct HV as (LW & HV). pose proof (PAr 0 ltac:(lia)) as PA. destruct (HV 0 ltac:(lia)) as (L0 & _).
  assert (OW : forall c, iscell cells c -> owner epart c = 0) by (intros c Hc; destruct (vs_owners _ _ _ _ _ _ VS) as (_ & X0); specialize (X0 c Hc); lia).
  assert (NH : zlen (dm_hext (Dr 0)) = 0). { pose proof (zlen_nonneg (dm_hext (Dr 0))). destruct (Z.eq_dec (zlen (dm_hext (Dr 0))) 0) as [|N]; [assumption|]. exfalso. destruct (pa_halos _ _ _ _ _ _ _ PA) as (_ & H1 & _). destruct (proj1 (H1 (ghalo (Dr 0) 0)) ltac:(exists 0; split; [unfold ishalo_of; lia | reflexivity])) as (A & B & _). apply B. apply OW. exact A. }
  destruct w as [|w0 [|w1 w]]; try (rewrite E1 in LW; cbn in LW; lia). change (nthZ [] [w0] 0) with w0 in L0. cbn [mapM].
  rewrite (get_nthZ d w0 0). 2:{ rewrite L0, (pa_cells _ _ _ _ _ _ _ PA). unfold owned. rewrite keep_all; [rewrite zlen_range; lia|]. intros c Hc. apply in_range in Hc. rewrite (OW c Hc). reflexivity. }
  cbn [bind]. eexists. split; [reflexivity|]. split; [rewrite E1; reflexivity|]. intros r Hr. assert (r = 0) by lia. subst r. rewrite NH. split; [reflexivity|]. intros h Hh. unfold ishalo_of in Hh. lia.
Qed.

(** the states of the ranks: rank r holds the values of X on its cells *)
Definition state_ok (X : Z -> R) (hs : list held_by) : Prop := exists ws, zlen hs = SIZE /\ values_of 0%R SIZE Ds X ws /\
  forall r, 0 <= r < SIZE -> exists s, get hs r = Ok s /\ vinv (dom_bc (Dr r)) bc vs (nthZ [] ws r) (hb_ne s) /\ vel_ok (Dr r) (hb_vel s).
Lemma state_results X hs : state_ok X hs -> exists ws, mapM (fun s => cell_of (hb_ne s)) hs = Ok ws /\ values_of 0%R SIZE Ds X ws.
Proof.
  intros (ws & LH & HV & HR). exists ws. split; [|exact HV]. pose proof size_pos as SP. destruct HV as (LW & _).
  destruct (mapM_total (fun s => cell_of (hb_ne s)) hs) as (l & E). { intros s Hs. destruct (get_In _ _ Hs) as (r & Hr & Eg). destruct (HR r ltac:(lia)) as (s' & Es & VI & _). rewrite Eg in Es. injection Es as <-. exists (nthZ [] ws r). exact (vinv_cell _ _ _ _ _ VI). }
  rewrite E. f_equal. pose proof (mapM_zlen _ _ _ E) as LL. apply (nthZ_ext [] l ws); [lia|]. intros r Hr. destruct (HR r ltac:(lia)) as (s' & Es & VI & _).
  assert (XE := mapM_nthZ _ hs l s' [] r E ltac:(lia)). rewrite (get_nthZ s' hs r) in Es by lia. injection Es as Es. rewrite Es, (vinv_cell _ _ _ _ _ VI) in XE. injection XE as <-. reflexivity.
Qed.

Lemma sizes r : 0 <= r < SIZE -> zlen (dm_center (Dr r)) = zlen (dm_loctoglob (Dr r)) /\ zlen (dm_centerh (Dr r)) = zlen (dm_hext (Dr r)).
Proof. intros Hr. destruct (pa_sizes _ _ _ _ _ _ _ (PAr r Hr)) as (_ & S2 & _ & _ & _ & SH & _). split; assumption. Qed.

Lemma start_ok X w0 : values_of 0%R SIZE Ds X w0 -> exists hs, start bc vs SIZE st w0 = Ok hs /\ state_ok X hs.
Proof.
  intros HV. pose proof size_pos as SP. pose proof HV as (LW & HV'). unfold start.
  assert (dh : held_by) by (exact {| hb_ne := {| va_heap := []; va_cell := 0; va_bcs := []; va_dirichletfaces := []; va_neumannfaces := []; va_BCdirichlet := []; va_BCneumann := [] |}; hb_vel := ([], [], []) |}).
  destruct (mapM_range_ex dh (fun r => do D <- get Ds r; do w <- get w0 r; do v <- new_variable (dom_bc D) (Some bc) (Some vs); do v <- write_array v (va_cell v) w;
                 let z := zeros_like 0%R (zlen (dm_center D)) in ret {| hb_ne := v; hb_vel := (z, z, z) |})
    (fun r s => vinv (dom_bc (Dr r)) bc vs (nthZ [] w0 r) (hb_ne s) /\ vel_ok (Dr r) (hb_vel s)) SIZE ltac:(lia)) as (hs & E & LH & HH).
  - intros r Hr. rewrite (get_domain r Hr). cbn [bind]. rewrite (get_nthZ []) by lia. cbn [bind]. pose proof (settings_ok dim cells nodes labels epart r (Dr r) VM (PAr r Hr) (CS r Hr) bc vs BV) as SO.
    destruct (new_ok (dom_bc (Dr r)) bc vs (cs_bc _ _ (CS r Hr)) SO) as (v & Ev & VI). rewrite Ev. cbn [bind].
    destruct (write_cell_ok (dom_bc (Dr r)) bc vs (cs_bc _ _ (CS r Hr)) SO _ v (nthZ [] w0 r) VI) as (v' & Ev' & VI'). { cbn [dom_bc bd_nbcells]. rewrite (proj1 (sizes r Hr)). apply HV'. exact Hr. }
    rewrite Ev'. cbn [bind]. cbv zeta. eexists. split; [reflexivity|]. cbn [hb_ne hb_vel]. split; [exact VI'|]. unfold vel_ok. cbn [fst snd]. rewrite !zlen_zeros_like by apply zlen_nonneg. auto.
  - exists hs. split; [exact E|]. exists w0. split; [exact LH|]. split; [exact HV|]. intros r Hr. exists (nthZ dh hs r). split; [apply get_nthZ; lia | apply HH; exact Hr].
Qed.

(** update_values: the halo values and the ghosts *)
Lemma update_values_ok X ws (ns : list variable) : zlen ns = SIZE -> values_of 0%R SIZE Ds X ws ->
  (forall r, 0 <= r < SIZE -> exists v, get ns r = Ok v /\ vinv (dom_bc (Dr r)) bc vs (nthZ [] ws r) v) ->
  exists vs', update_values SIZE st ns = Ok vs' /\ zlen vs' = SIZE /\ forall r, 0 <= r < SIZE -> exists v g1, get vs' r = Ok v /\ vinv (dom_bc (Dr r)) bc vs (nthZ [] ws r) v /\ zlen (va_heap v) = 9 /\
    zlen (nthZ [] (va_heap v) 2) = zlen (dm_centerh (Dr r)) /\ (forall h, ishalo_of (Dr r) h -> nthZ 0%R (nthZ [] (va_heap v) 2) h = X (ghalo (Dr r) h)) /\ ghosts_updated (dom_bc (Dr r)) bc vs (nthZ [] ws r) g1 (nthZ [] (va_heap v) 3).
Proof.
  intros LN HV HN. pose proof size_pos as SP. pose proof HV as (LW & _). unfold update_values.
  assert (EC : mapM cell_of ns = Ok ws).
  { destruct (mapM_total cell_of ns) as (l & E). { intros s Hs. destruct (get_In _ _ Hs) as (r & Hr & Eg). destruct (HN r ltac:(lia)) as (s' & Es & VI). rewrite Eg in Es. injection Es as <-. exists (nthZ [] ws r). exact (vinv_cell _ _ _ _ _ VI). }
    rewrite E. f_equal. pose proof (mapM_zlen _ _ _ E) as LL. apply (nthZ_ext [] l ws); [lia|]. intros r Hr. destruct (HN r ltac:(lia)) as (s' & Es & VI).
    assert (XE := mapM_nthZ _ ns l s' [] r E ltac:(lia)). rewrite (get_nthZ s' ns r) in Es by lia. injection Es as Es. rewrite Es, (vinv_cell _ _ _ _ _ VI) in XE. injection XE as <-. reflexivity. }
  rewrite EC. cbn [bind]. destruct (exchange_ok 0%R X ws HV) as (halo & EH & LH & HH). rewrite EH. cbn [bind].
  assert (dv : variable) by (exact {| va_heap := []; va_cell := 0; va_bcs := []; va_dirichletfaces := []; va_neumannfaces := []; va_BCdirichlet := []; va_BCneumann := [] |}).
  destruct (mapM_range_ex dv (fun r => do D <- get Ds r; do v <- get ns r; do h <- get halo r; do v <- write_array v r_halo h; update_ghost_value (dom_bc D) v)
    (fun r v => exists g1, vinv (dom_bc (Dr r)) bc vs (nthZ [] ws r) v /\ zlen (va_heap v) = 9 /\ zlen (nthZ [] (va_heap v) 2) = zlen (dm_centerh (Dr r)) /\
       (forall h, ishalo_of (Dr r) h -> nthZ 0%R (nthZ [] (va_heap v) 2) h = X (ghalo (Dr r) h)) /\ ghosts_updated (dom_bc (Dr r)) bc vs (nthZ [] ws r) g1 (nthZ [] (va_heap v) 3)) SIZE ltac:(lia)) as (l & E & LL & HL).
  - intros r Hr. rewrite (get_domain r Hr). cbn [bind]. destruct (HN r Hr) as (v & Ev & VI). rewrite Ev. cbn [bind]. rewrite (get_nthZ []) by lia. cbn [bind]. destruct (HH r Hr) as (HL & HV').
    pose proof (settings_ok dim cells nodes labels epart r (Dr r) VM (PAr r Hr) (CS r Hr) bc vs BV) as SO. destruct (sizes r Hr) as (_ & SH).
    destruct (write_halo_ok (dom_bc (Dr r)) bc vs (cs_bc _ _ (CS r Hr)) _ v (nthZ [] halo r) VI) as (v1 & E1 & VI1 & H1); [cbn [dom_bc bd_nbhalos]; lia|]. rewrite E1. cbn [bind].
    destruct (update_ok (dom_bc (Dr r)) bc vs (cs_bc _ _ (CS r Hr)) SO _ v1 VI1) as (v2 & E2 & VI2 & H2 & G2 & N2). exists v2. split; [exact E2|]. exists (nthZ [] (va_heap v1) 3). split; [exact VI2|]. split; [exact N2|]. rewrite H2, H1. split; [lia|]. split; [exact HV' | exact G2].
  - exists l. split; [exact E|]. split; [exact LL|]. intros r Hr. destruct (HL r Hr) as (g1 & H). exists (nthZ dv l r), g1. split; [apply get_nthZ; lia | exact H].
Qed.

(** the time steps *)
Lemma min_step dts : zlen dts = SIZE -> (forall r, 0 <= r < SIZE -> exists dt, nthZ None dts r = Some dt /\ (0 < dt <= 1000000)%R /\
     (forall c, iscell_of (Dr r) c -> dt * speed cells nodes U (gcell (Dr r) c) <= cfl * measure_of cells nodes (gcell (Dr r) c))%R /\
     (dt = 1000000%R \/ exists c, iscell_of (Dr r) c /\ (0 < speed cells nodes U (gcell (Dr r) c))%R /\ (dt * speed cells nodes U (gcell (Dr r) c) = cfl * measure_of cells nodes (gcell (Dr r) c))%R)) ->
  exists dt, allreduce_min dts = Some dt /\ (0 < dt)%R /\ largest_step cells nodes U cfl dt.
Proof.
  intros LD HD. pose proof size_pos as SP. destruct (allreduce_ok dts) as (dt & E & (i & Hi & Ei) & ML); [lia | intros j Hj; destruct (HD j ltac:(lia)) as (x & Ex & _); exists x; exact Ex|].
  exists dt. split; [exact E|]. destruct (HD i ltac:(lia)) as (dt' & E' & B & F & M). rewrite Ei in E'. injection E' as <-. split; [lra|]. split.
  - split; [lra|]. intros c Hc. destruct (vs_owners _ _ _ _ _ _ VS) as (_ & OW). specialize (OW c Hc). set (r := owner epart c) in *. destruct (gcell_onto dim cells nodes labels epart r (Dr r) (PAr r OW) c Hc eq_refl) as (a & Ha & Ea). rewrite <- Ea.
    destruct (HD r OW) as (dr & Er & Br & Fr & _). pose proof (ML r dr ltac:(lia) Er) as LE. specialize (Fr a Ha). eapply Rle_trans; [|exact Fr]. apply Rmult_le_compat_r; [|exact LE].
    unfold speed. apply rsum_map_nonneg. intros; apply Rabs_pos.
  - intros d (D1 & D2). destruct M as [->|(a & Ha & S0 & ES)]; [exact D1|]. specialize (D2 (gcell (Dr i) a) ltac:(exact (proj1 (gcell_owned dim cells nodes labels epart i (Dr i) (PAr i ltac:(lia)) a Ha)))). rewrite <- ES in D2. apply (Rmult_le_reg_r _ _ _ S0 D2).
Qed.

(** one turn *)
Lemma turn_ok X hs : state_ok X hs -> exists dt hs', turn_of_loop U cfl SIZE st hs = Ok (dt, hs') /\ (0 < dt)%R /\ largest_step cells nodes U cfl dt /\ state_ok (upwind_step dim cells nodes labels bc vs U dt X) hs'.
Proof.
  intros (ws & LH & HV & HR). pose proof size_pos as SP. unfold turn_of_loop.
  (* velocities *)
  destruct (mapM_range_ex ([], [], []) (fun r => do D <- get Ds r; do s <- get hs r; cell_velocity U D (hb_vel s)) (fun r u => vel_ok (Dr r) u /\ components (fst (fst u)) (snd (fst u)) (snd u) = zeros_like U (zlen (dm_center (Dr r)))) SIZE ltac:(lia)) as (vel & EV & LV & VV).
  { intros r Hr. rewrite (get_domain r Hr). cbn [bind]. destruct (HR r Hr) as (s & Es & _ & VO). rewrite Es. cbn [bind]. apply (velocity_ok dim cells nodes labels epart r (Dr r) VM (PAr r Hr) (CS r Hr) U _ VO). }
  rewrite EV. cbn [bind].
  (* halos and ghosts *)
  destruct (update_values_ok X ws (map hb_ne hs)) as (ns & EN & LN & HN); [rewrite zlen_map; exact LH | exact HV | |].
  { intros r Hr. destruct (HR r Hr) as (s & Es & VI & _). exists (hb_ne s). split; [|exact VI]. rewrite (get_nthZ s) in Es by lia. injection Es as Es. rewrite (get_nthZ (hb_ne s)) by (rewrite zlen_map; lia). rewrite (nthZ_map _ s) by lia. rewrite Es. reflexivity. }
  rewrite EN. cbn [bind].
  (* time steps *)
  destruct (mapM_range_ex None (fun r => do D <- get Ds r; do u <- get vel r;
                  time_step (dm_dim D) (components (fst (fst u)) (snd (fst u)) (snd u)) (dm_normal D) cfl (dm_mesure D) (dm_volume D) (dm_faceid D) (P3 0 0 0))
     (fun r o => exists dt, o = Some dt /\ (0 < dt <= 1000000)%R /\
     (forall c, iscell_of (Dr r) c -> dt * speed cells nodes U (gcell (Dr r) c) <= cfl * measure_of cells nodes (gcell (Dr r) c))%R /\
     (dt = 1000000%R \/ exists c, iscell_of (Dr r) c /\ (0 < speed cells nodes U (gcell (Dr r) c))%R /\ (dt * speed cells nodes U (gcell (Dr r) c) = cfl * measure_of cells nodes (gcell (Dr r) c))%R)) SIZE ltac:(lia)) as (dts & ED & LD & VD).
  { intros r Hr. rewrite (get_domain r Hr). cbn [bind]. rewrite (get_nthZ ([], [], [])) by lia. cbn [bind]. destruct (VV r Hr) as (_ & EC). rewrite EC. destruct (timestep_ok dim cells nodes labels epart r (Dr r) VM (PAr r Hr) (CS r Hr) U cfl HCFL) as (dt & E & H). exists (Some dt). split; [exact E|]. exists dt. split; [reflexivity | exact H]. }
  rewrite ED. cbn [bind]. destruct (min_step dts LD VD) as (dt & EM & PD & LS). rewrite EM.
  (* the update *)
  assert (dh : held_by) by (exact {| hb_ne := {| va_heap := []; va_cell := 0; va_bcs := []; va_dirichletfaces := []; va_neumannfaces := []; va_BCdirichlet := []; va_BCneumann := [] |}; hb_vel := ([], [], []) |}).
  destruct (mapM_range_ex (dh, @nil R) (fun r => do D <- get Ds r; do v <- get ns r; do u <- get vel r; do v <- advance_rank U dt D v; do w <- cell_of v; ret ({| hb_ne := v; hb_vel := u |}, w))
     (fun r p => (do D <- get Ds r; do v <- get ns r; do u <- get vel r; do v <- advance_rank U dt D v; ret {| hb_ne := v; hb_vel := u |}) = Ok (fst p) /\ vinv (dom_bc (Dr r)) bc vs (snd p) (hb_ne (fst p)) /\ vel_ok (Dr r) (hb_vel (fst p)) /\
        zlen (snd p) = zlen (dm_center (Dr r)) /\ forall c, iscell_of (Dr r) c -> nthZ 0%R (snd p) c = upwind_step dim cells nodes labels bc vs U dt X (gcell (Dr r) c)) SIZE ltac:(lia)) as (ps & _ & LP & VP).
  { intros r Hr. rewrite (get_domain r Hr). cbn [bind]. destruct (HN r Hr) as (v & g1 & Ev & VI & H9 & LH2 & HH & GU). rewrite Ev. cbn [bind]. rewrite (get_nthZ ([], [], [])) by lia. cbn [bind]. destruct HV as (LW & HV'). destruct (HV' r Hr) as (LWr & HWr).
    assert (LWc : zlen (nthZ [] ws r) = zlen (dm_center (Dr r))) by (rewrite (proj1 (sizes r Hr)); exact LWr).
    destruct (advance_ok dim cells nodes labels epart r (Dr r) VM (PAr r Hr) (CS r Hr) bc vs BV U dt X _ v VI LWc HWr LH2 HH H9) as (v' & w' & E & VI' & LW' & HW'); [exact (proj1 GU) | exact (ghost_ok dim cells nodes labels epart r (Dr r) VM (PAr r Hr) (CS r Hr) bc vs BV _ _ _ X LWc HWr GU)|].
    rewrite E. cbn [bind]. rewrite (vinv_cell _ _ _ _ _ VI'). cbn [bind]. eexists. split; [reflexivity|]. cbn [fst snd hb_ne hb_vel]. split; [reflexivity|]. split; [exact VI'|]. split; [apply VV; exact Hr|]. split; assumption. }
  assert (EF : mapM (fun r => do D <- get Ds r; do v <- get ns r; do u <- get vel r; do v <- advance_rank U dt D v; ret {| hb_ne := v; hb_vel := u |}) (range SIZE) = Ok (map fst ps)).
  { rewrite <- (map_nthZ_range (dh, @nil R) ps). rewrite LP, map_map. apply mapM_ok. intros r Hr. apply in_range in Hr. exact (proj1 (VP r Hr)). }
  rewrite EF. cbn [bind]. exists dt, (map fst ps). split; [reflexivity|]. split; [exact PD|]. split; [exact LS|]. exists (map snd ps). split; [rewrite zlen_map; exact LP|]. split.
  - split; [rewrite zlen_map; exact LP|]. intros r Hr. rewrite (nthZ_map _ (dh, @nil R)) by lia. destruct (VP r Hr) as (_ & _ & _ & L & V). rewrite <- (proj1 (sizes r Hr)). split; [exact L | exact V].
  - intros r Hr. exists (fst (nthZ (dh, @nil R) ps r)). rewrite (get_nthZ dh) by (rewrite zlen_map; lia). rewrite (nthZ_map _ (dh, @nil R)) by lia. split; [reflexivity|]. rewrite (nthZ_map _ (dh, @nil R)) by lia. destruct (VP r Hr) as (_ & VI & VO & _). split; assumption.
Qed.

(** the loop *)
Lemma loop_runs dt tfinal X : largest_step cells nodes U cfl dt -> forall n k hs fuel, state_ok (upwind dim cells nodes labels k bc vs U dt X) hs -> (n <= fuel)%nat ->
  (tfinal <= INR (k + n) * dt)%R -> (forall m, (m < k + n)%nat -> (INR m * dt < tfinal)%R) ->
  exists hs', loop fuel U cfl SIZE st tfinal (INR k * dt)%R hs = Ok (Some (INR (k + n) * dt, hs')%R) /\ state_ok (upwind dim cells nodes labels (k + n) bc vs U dt X) hs'.
Proof.
  intros HD. induction n as [|n IH]; intros k hs fuel HS Hf T1 T2.
  - rewrite Nat.add_0_r in *. exists hs. split; [|exact HS]. destruct fuel; cbn [loop]; destruct (Rlt_dec (INR k * dt) tfinal); [exfalso; lra | reflexivity | exfalso; lra | reflexivity].
  - destruct fuel as [|fuel]; [lia|]. cbn [loop]. destruct (Rlt_dec (INR k * dt) tfinal) as [_|X0]; [|exfalso; apply X0, T2; lia]. destruct (turn_ok _ _ HS) as (dt' & hs' & E & _ & LS & HS'). rewrite E. cbn [bind fst snd].
    rewrite (largest_unique _ _ _ _ _ _ LS HD) in *. replace (INR k * dt + dt)%R with (INR (Datatypes.S k) * dt)%R by (rewrite S_INR; ring). replace (k + Datatypes.S n)%nat with (Datatypes.S k + n)%nat in * by lia.
    apply IH; [exact HS' | lia | exact T1 | exact T2].
Qed.
Lemma steps dt tfinal : (0 < dt)%R -> exists n, (tfinal <= INR n * dt)%R /\ forall m, (m < n)%nat -> (INR m * dt < tfinal)%R.
Proof.
  intros Hd. assert (H : exists n, (tfinal <= INR n * dt)%R). { assert (HN : exists n, (tfinal / dt <= INR n)%R). { exists (Z.to_nat (Z.max 0 (Rdefinitions.up (tfinal / dt)%R))). rewrite INR_IZR_INZ, Z2Nat.id by lia. pose proof (proj1 (archimed (tfinal / dt)%R)). assert (IZR (Rdefinitions.up (tfinal / dt)%R) <= IZR (Z.max 0 (Rdefinitions.up (tfinal / dt)%R)))%R by (apply IZR_le; lia). lra. }
    destruct HN as (n & Hn). exists n. apply Rmult_le_compat_r with (r := dt) in Hn; [|lra]. unfold Rdiv in Hn. rewrite Rmult_assoc, Rinv_l, Rmult_1_r in Hn by lra. exact Hn. }
  destruct H as (n & Hn). induction n as [|n IH]; [exists 0%nat; split; [exact Hn | intros m Hm; lia]|].
  destruct (Rle_dec tfinal (INR n * dt)) as [H|H]; [apply IH, H|]. exists (Datatypes.S n). split; [exact Hn|]. intros m Hm. assert (INR m <= INR n)%R by (apply le_INR; lia). assert (INR m * dt <= INR n * dt)%R by (apply Rmult_le_compat_r; lra). lra.
Qed.
Lemma transport_runs X w0 tfinal : values_of 0%R SIZE Ds X w0 -> exists dt n, (0 < dt)%R /\ largest_step cells nodes U cfl dt /\ (tfinal <= INR n * dt)%R /\ (forall m, (m < n)%nat -> (INR m * dt < tfinal)%R) /\
  forall fuel, (n <= fuel)%nat -> exists hs ws, transport fuel bc vs U cfl tfinal SIZE st w0 = Ok (Some (INR n * dt, hs)%R) /\ mapM (fun s => cell_of (hb_ne s)) hs = Ok ws /\ values_of 0%R SIZE Ds (upwind dim cells nodes labels n bc vs U dt X) ws.
Proof.
  intros HV. destruct (start_ok X w0 HV) as (hs & E & HS). destruct (turn_ok X hs HS) as (dt & _ & _ & PD & LS & _). destruct (steps dt tfinal PD) as (n & T1 & T2). exists dt, n. split; [exact PD|]. split; [exact LS|]. split; [exact T1|]. split; [exact T2|].
  intros fuel Hf. destruct (loop_runs dt tfinal X LS n 0%nat hs fuel HS Hf T1 T2) as (hs' & EL & HS'). destruct (state_results _ _ HS') as (ws & EW & HW). exists hs', ws. split; [|split; assumption].
  unfold transport. rewrite E. cbn [bind]. cbn [INR] in EL. rewrite Rmult_0_l in EL. exact EL.
Qed.
End Ranks.
