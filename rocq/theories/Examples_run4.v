(** * Examples_run4: the program of C80 on the unit square of two triangles, and what its time step does not ensure (C82). *)
From Coq Require Import Reals Lra Permutation Sorted.
From Verif Require Import Py PyLemmas Model_part Spec_part Model_label Model_conn Spec_conn Model_geom Spec_geom Proofs_geom1 Model_interp Spec_interp Spec_lsq Model_fvm Spec_fvm Proofs_fvm1 Proofs_fvm2 Model_bc Spec_bc Spec_bc3
  Model_domain Spec_domain Model_parallel Spec_parallel Properties_geom Properties_parallel Model_comm Model_run Spec_run Proofs_run1 Proofs_run3 Proofs_run5 Proofs_run6 Properties_run Spec_run2 Model_run2 Proofs_run7 Proofs_run11 Proofs_run13 Proofs_run14 Proofs_run15 Spec_run3 Proofs_run16 Properties_run2
  Model_poisson Spec_poisson Spec_poisson2 Spec_poisson3 Proofs_poisson6 Proofs_poisson7 Proofs_poisson8 Proofs_poisson9 Proofs_poisson10 Properties_poisson Properties_poisson2 Model_run4 Spec_run6 Proofs_run30 Proofs_run31 Proofs_run32 Proofs_run33 Properties_run4.
From Verif Require Import Model_linsys.
From Verif Require Spec_linsys Proofs_linsys5.
Open Scope Z_scope.

Notation sql := [4; 4; 3; 3].
(** ** A source in one cell drives a flow; the density has no boundary conditions; one rank and two ranks *)
Definition sq_source (c : Z) : R := if c =? 0 then 0%R else 6%R.
Definition sq_pressure (c : Z) : R := if c =? 0 then 0%R else (-1)%R.
Theorem C81_square : forall f32 K cfl tfinal X order spread, (0 < cfl)%R -> (0 <= px K + py K + pz K)%R ->
  exists st st', setup f32 2 1 sq sq_v sql [0; 0; 0; 0] [0; 0] = Ok st /\ setup f32 2 2 sq sq_v sql [0; 0; 1; 1] [0; 1] = Ok st' /\
    exists n time Y, forall n0 p00 P0 backend n0' p00' P0' backend' fuel, values_of 0%R 1 (se_domains st) X n0 -> values_of 0%R 1 (se_domains st) P0 p00 -> (forall k, solving 2 (backend k)) ->
      values_of 0%R 2 (se_domains st') X n0' -> values_of 0%R 2 (se_domains st') P0' p00' -> (forall k, solving 2 (backend' k)) -> (n <= fuel)%nat ->
      exists s s', darcy fuel spread order K cfl tfinal None (Some (sq_bc, sq_bcv)) 1 st SMumps [Some [0%R; 6%R]] backend n0 p00 = Ok (Some (time, s)) /\
        darcy fuel spread order K cfl tfinal None (Some (sq_bc, sq_bcv)) 2 st' SMumps [Some [0%R; 6%R]; None] backend' n0' p00' = Ok (Some (time, s')) /\
        holding 1 st Y (dk_ne s) /\ holding 2 st' Y (dk_ne s').
Proof.
  intros f32 K cfl tfinal X order spread Hcfl HK.
  destruct (C81_same_result f32 2 sq sq_v sql None (Some (sq_bc, sq_bcv)) 1 [0; 0; 0; 0] [0; 0] 2 [0; 0; 1; 1] [0; 1] (proj1 C70_square) (proj2 C70_square) (proj1 (C80_default_conditions 2 sq sql [0; 0])) (proj2 (C80_default_conditions 2 sq sql [0; 0])) (proj2 (C80_default_conditions 2 sq sql [0; 1])) C76_square_closed) as (st & st' & E & E' & H).
  exists st, st'. split; [exact E|]. split; [exact E'|].
  assert (CC : forall c, iscell sq c -> c = 0 \/ c = 1) by (intros c Hc; unfold iscell in Hc; change (zlen sq) with 2 in Hc; lia).
  apply (H SMumps SMumps [Some [0%R; 6%R]] [Some [0%R; 6%R]; None] sq_source X sq_pressure spread order K cfl tfinal); auto.
  - intros r Hr. assert (r = 0) by lia. subst r. exists (Some [0%R; 6%R]). split; [reflexivity|]. split; [reflexivity|]. split; [reflexivity|]. intros c Hc. destruct (CC c Hc) as [-> | ->]; reflexivity.
  - intros r Hr. assert (C : r = 0 \/ r = 1) by lia. destruct C as [-> | ->].
    + exists (Some [0%R; 6%R]). split; [reflexivity|]. split; [reflexivity|]. split; [reflexivity|]. intros c Hc. destruct (CC c Hc) as [-> | ->]; reflexivity.
    + exists None. split; [reflexivity|]. cbn. intros A. discriminate A.
  - apply C74_square. unfold sq_source, sq_pressure. cbn [Z.eqb]. split; ring.
  - intros P' HP c Hc. apply C74_square in HP as (A0 & A1). unfold sq_source in A0, A1. cbn [Z.eqb] in A0, A1. unfold sq_pressure. destruct (CC c Hc) as [-> | ->]; cbn [Z.eqb]; lra.
Qed.

(** ** The time step of the program does not bound what enters a cell *)
(** values of the pressure on all four sides (the sides left and right of the square carry the label of the upper side here) *)
Definition swirl (x y z : R) : R := (- 3 / 4 * x * (1 - y) + 5 / 4 * (1 - x) * y + 1 / 2 * x * y + 4 * x * (1 - x) * ((1 - y) * (7 / 12) - y * (5 / 3)) - 4 * y * (1 - y) * (1 - x) * (13 / 12))%R.
Definition sw_bc : list (loc * bctype) := [(LBottom, BDirichlet); (LUpper, BDirichlet); (LIn, BNeumann); (LOut, BNeumann)].
Definition sw_bcv : list (loc * bcval) := [(LBottom, VFun swirl); (LUpper, VFun swirl)].
Definition sw_P (c : Z) : R := if c =? 0 then (- 1 / 8)%R else (- 11 / 24)%R.
Lemma sw_regular : regular 2 1 sq sq_v sql [0; 0; 0; 0] [0; 0] sw_bc sw_bcv.
Proof.
  destruct (proj1 C70_square) as [VM PL SC SP VS _ _]. constructor; auto.
  - split; [|split; [|split; [|split]]].
    + cbn. repeat (apply NoDup_cons; [cbn; intuition discriminate|]). apply NoDup_nil.
    + intros l t H. cbn in H. repeat (destruct H as [H|H]; [injection H as <- <-; split; [cbn; tauto | auto]|]). destruct H.
    + intros l H. cbn in *. tauto.
    + cbn. repeat split; try (intros [X|X]; discriminate X); intros _ l X; cbn in X; intuition discriminate.
    + intros l H. cbn in H. destruct H as [H|[H|H]]; [injection H as <-; cbn; discriminate | injection H as <-; cbn; discriminate|]. exfalso. intuition discriminate.
  - intros g a b c F l Ha Hb _ _ NE. exfalso. apply NE. assert (O : forall c, iscell sq c -> owner [0; 0] c = 0) by (intros d Hd; unfold iscell in Hd; change (zlen sq) with 2 in Hd; assert (C : d = 0 \/ d = 1) by lia; destruct C as [-> | ->]; reflexivity). rewrite !O by assumption. reflexivity.
Qed.
Lemma sw_fixed : node_fixed sq_v sql sw_bc sw_bcv 0 = Some 0%R /\ node_fixed sq_v sql sw_bc sw_bcv 1 = Some (- 3 / 4)%R /\ node_fixed sq_v sql sw_bc sw_bcv 2 = Some (1 / 2)%R /\ node_fixed sq_v sql sw_bc sw_bcv 3 = Some (5 / 4)%R /\
  facet_fixed 2 sq_v sql sw_bc sw_bcv [0; 1] = Some (5 / 24)%R /\ facet_fixed 2 sq_v sql sw_bc sw_bcv [1; 2] = Some (- 1 / 8)%R /\ facet_fixed 2 sq_v sql sw_bc sw_bcv [2; 3] = Some (- 19 / 24)%R /\ facet_fixed 2 sq_v sql sw_bc sw_bcv [0; 3] = Some (- 11 / 24)%R.
Proof.
  destruct sq_at as (A0 & A1 & A2 & A3).
  assert (N : forall g l, nthZ 0 sql g = l -> fixed sw_bc sw_bcv l (at_node sq_v g) = node_fixed sq_v sql sw_bc sw_bcv g) by (intros g l <-; reflexivity).
  assert (B : forall p, fixed sw_bc sw_bcv 4 p = Some (swirl (px p) (py p) (pz p))) by reflexivity. assert (U : forall p, fixed sw_bc sw_bcv 3 p = Some (swirl (px p) (py p) (pz p))) by reflexivity.
  assert (FC : facet_centre sq_v [0; 1] = P3 (1/2) 0 0 /\ facet_centre sq_v [1; 2] = P3 1 (1/2) 0 /\ facet_centre sq_v [2; 3] = P3 (1/2) 1 0 /\ facet_centre sq_v [0; 3] = P3 0 (1/2) 0).
  { unfold facet_centre. cbn [map]. rewrite A0, A1, A2, A3. unfold barycentre, vsum, vscal, vadd. cbn [fold_right length px py pz]. repeat split; f_equal; cbn; field. }
  destruct FC as (F1 & F2 & F3 & F4).
  split; [rewrite <- (N 0 4 eq_refl), B, A0; unfold swirl; cbn [px py pz]; f_equal; field|]. split; [rewrite <- (N 1 4 eq_refl), B, A1; unfold swirl; cbn [px py pz]; f_equal; field|].
  split; [rewrite <- (N 2 3 eq_refl), U, A2; unfold swirl; cbn [px py pz]; f_equal; field|]. split; [rewrite <- (N 3 3 eq_refl), U, A3; unfold swirl; cbn [px py pz]; f_equal; field|].
  unfold facet_fixed. change (face_label (priority 2) (map (nthZ 0 sql) [0; 1])) with 4. change (face_label (priority 2) (map (nthZ 0 sql) [1; 2])) with 3. change (face_label (priority 2) (map (nthZ 0 sql) [2; 3])) with 3. change (face_label (priority 2) (map (nthZ 0 sql) [0; 3])) with 3.
  rewrite B, !U, F1, F2, F3, F4. unfold swirl. cbn [px py pz]. repeat split; f_equal; field.
Qed.
Lemma sw_closed : sides_closed 2 sq sq_v sql sw_bc sw_bcv.
Proof.
  intros c F g HB _ Hg. destruct sw_fixed as (N0 & N1 & N2 & N3 & _). change (boundary_facets sq) with [(0, [1; 2]); (0, [0; 1]); (1, [2; 3]); (1, [0; 3])] in HB. cbn [In] in HB.
  destruct HB as [HB|[HB|[HB|[HB|[]]]]]; injection HB as <- <-; cbn [In] in Hg; destruct Hg as [<-|[<-|[]]]; rewrite ?N0, ?N1, ?N2, ?N3; discriminate.
Qed.
Lemma vneg_value v a b c : Spec_linsys.vneg v = P3 a b c -> v = P3 (- a) (- b) (- c).
Proof. destruct v as [x y z]. unfold Spec_linsys.vneg. cbn [px py pz]. intros E. injection E as E1 E2 E3. f_equal; lra. Qed.
(** the velocity field: its mean is zero in both cells *)
Lemma sw_velocity P V : (forall c, iscell sq c -> P c = sw_P c) -> velocity_of 2 sq sq_v sql sw_bc sw_bcv P V ->
  V 0 [1; 2] = P3 0 (-5/4) 0 /\ V 0 [0; 1] = P3 (3/4) 1 0 /\ V 0 [0; 2] = P3 (-3/4) (1/4) 0 /\ V 1 [2; 3] = P3 (3/4) 1 0 /\ V 1 [0; 3] = P3 0 (-5/4) 0 /\ V 1 [0; 2] = P3 (-3/4) (1/4) 0.
Proof.
  intros EP (N & _ & H). destruct sw_fixed as (N0 & N1 & N2 & N3 & F1 & F2 & F3 & F4). destruct C69_square_outward as (O1 & O2 & O3 & O4 & O5 & O6). destruct sq_centres as (C0 & C1). destruct sq_at as (A0 & A1 & A2 & A3).
  assert (I0 : iscell sq 0) by (unfold iscell; change (zlen sq) with 2; lia). assert (I1 : iscell sq 1) by (unfold iscell; change (zlen sq) with 2; lia). pose proof (EP 0 I0) as P0. pose proof (EP 1 I1) as P1. unfold sw_P in P0, P1. cbn [Z.eqb] in P0, P1.
  assert (FC : facet_centre sq_v [0; 1] = P3 (1/2) 0 0 /\ facet_centre sq_v [1; 2] = P3 1 (1/2) 0 /\ facet_centre sq_v [2; 3] = P3 (1/2) 1 0 /\ facet_centre sq_v [0; 3] = P3 0 (1/2) 0).
  { unfold facet_centre. cbn [map]. rewrite A0, A1, A2, A3. unfold barycentre, vsum, vscal, vadd. cbn [fold_right length px py pz]. repeat split; f_equal; cbn; field. }
  destruct FC as (K1 & K2 & K3 & K4).
  assert (SV : forall g y, node_fixed sq_v sql sw_bc sw_bcv g = Some y -> shown_value sq_v sql sw_bc sw_bcv N g = y) by (intros g y Eg; unfold shown_value; rewrite Eg; reflexivity).
  pose proof (SV 0 _ N0) as S0. pose proof (SV 1 _ N1) as S1. pose proof (SV 2 _ N2) as S2. pose proof (SV 3 _ N3) as S3. clear SV.
  assert (IN : In [1; 2] (facets (cell sq 0)) /\ In [0; 1] (facets (cell sq 0)) /\ In [0; 2] (facets (cell sq 0)) /\ In [2; 3] (facets (cell sq 1)) /\ In [0; 3] (facets (cell sq 1)) /\ In [0; 2] (facets (cell sq 1))) by (vm_compute; tauto).
  destruct IN as (J1 & J2 & J3 & J4 & J5 & J6).
  assert (M0 : node_fixed sq_v sql sw_bc sw_bcv 0 <> None) by (rewrite N0; discriminate). assert (M1 : node_fixed sq_v sql sw_bc sw_bcv 1 <> None) by (rewrite N1; discriminate).
  assert (M2 : node_fixed sq_v sql sw_bc sw_bcv 2 <> None) by (rewrite N2; discriminate). assert (M3 : node_fixed sq_v sql sw_bc sw_bcv 3 <> None) by (rewrite N3; discriminate).
  assert (B0 : beside sq 0 [0; 2] <> None) by (vm_compute; discriminate). assert (B1 : beside sq 1 [0; 2] <> None) by (vm_compute; discriminate).
  split; [|split; [|split; [|split; [|split]]]].
  - destruct (H 0 [1; 2] I0 J1) as (G & T & Q). specialize (T 1 2 ltac:(cbn; auto) ltac:(cbn; auto) (or_intror (or_intror (conj M1 M2)))). change (beside sq 0 [1; 2]) with (@None Z) in Q. cbn iota in Q. unfold dirichlet_flux in Q. rewrite F2, O1, K2, C0, P0 in Q. rewrite S1, S2, A1, A2 in T. specialize (G eq_refl).
    destruct (V 0 [1; 2]) as [x y z]. unfold Spec_linsys.vneg, vdot, vsub in *. cbn [px py pz] in *. f_equal; lra.
  - destruct (H 0 [0; 1] I0 J2) as (G & T & Q). specialize (T 0 1 ltac:(cbn; auto) ltac:(cbn; auto) (or_intror (or_intror (conj M0 M1)))). change (beside sq 0 [0; 1]) with (@None Z) in Q. cbn iota in Q. unfold dirichlet_flux in Q. rewrite F1, O3, K1, C0, P0 in Q. rewrite S0, S1, A0, A1 in T. specialize (G eq_refl).
    destruct (V 0 [0; 1]) as [x y z]. unfold Spec_linsys.vneg, vdot, vsub in *. cbn [px py pz] in *. replace ((5 / 24 - -1 / 8) * (0 * 0 + -1 * -1 + 0 * 0) / (0 * (1 / 2 - 2 / 3) + -1 * (0 - 1 / 3) + 0 * (0 - 0)))%R with 1%R in Q by field. f_equal; lra.
  - destruct (H 0 [0; 2] I0 J3) as (G & T & Q). specialize (T 0 2 ltac:(cbn; auto) ltac:(cbn; auto) (or_introl B0)). change (beside sq 0 [0; 2]) with (Some 1) in Q. cbn iota in Q. rewrite C0, C1, P0, P1 in Q. rewrite S0, S2, A0, A2 in T. specialize (G eq_refl).
    destruct (V 0 [0; 2]) as [x y z]. unfold Spec_linsys.vneg, vdot, vsub in *. cbn [px py pz] in *. f_equal; lra.
  - destruct (H 1 [2; 3] I1 J4) as (G & T & Q). specialize (T 2 3 ltac:(cbn; auto) ltac:(cbn; auto) (or_intror (or_intror (conj M2 M3)))). change (beside sq 1 [2; 3]) with (@None Z) in Q. cbn iota in Q. unfold dirichlet_flux in Q. rewrite F3, O4, K3, C1, P1 in Q. rewrite S2, S3, A2, A3 in T. specialize (G eq_refl).
    destruct (V 1 [2; 3]) as [x y z]. unfold Spec_linsys.vneg, vdot, vsub in *. cbn [px py pz] in *. replace ((-19 / 24 - -11 / 24) * (0 * 0 + 1 * 1 + 0 * 0) / (0 * (1 / 2 - 1 / 3) + 1 * (1 - 2 / 3) + 0 * (0 - 0)))%R with (-1)%R in Q by field. f_equal; lra.
  - destruct (H 1 [0; 3] I1 J5) as (G & T & Q). specialize (T 0 3 ltac:(cbn; auto) ltac:(cbn; auto) (or_intror (or_intror (conj M0 M3)))). change (beside sq 1 [0; 3]) with (@None Z) in Q. cbn iota in Q. unfold dirichlet_flux in Q. rewrite F4, O6, K4, C1, P1 in Q. rewrite S0, S3, A0, A3 in T. specialize (G eq_refl).
    destruct (V 1 [0; 3]) as [x y z]. unfold Spec_linsys.vneg, vdot, vsub in *. cbn [px py pz] in *. f_equal; lra.
  - destruct (H 1 [0; 2] I1 J6) as (G & T & Q). specialize (T 0 2 ltac:(cbn; auto) ltac:(cbn; auto) (or_introl B1)). change (beside sq 1 [0; 2]) with (Some 0) in Q. cbn iota in Q. rewrite C0, C1, P0, P1 in Q. rewrite S0, S2, A0, A2 in T. specialize (G eq_refl).
    destruct (V 1 [0; 2]) as [x y z]. unfold Spec_linsys.vneg, vdot, vsub in *. cbn [px py pz] in *. f_equal; lra.
Qed.
Lemma sq_cells c : iscell sq c -> c = 0 \/ c = 1.
Proof. intros Hc. unfold iscell in Hc. change (zlen sq) with 2 in Hc. lia. Qed.
Lemma sq_measure c : iscell sq c -> measure_of sq sq_v c = (1 / 2)%R.
Proof.
  intros Hc. destruct (sq_cells c Hc) as [-> | ->]; unfold measure_of, cell_measure; [change (cell sq 0) with [0; 1; 2] | change (cell sq 1) with [0; 3; 2]]; cbn [map]; sq_pts; unfold turn; cbn [px py pz]; unfold Rabs; destruct (Rcase_abs _); lra.
Qed.
(** With these values of the pressure on the sides and no sources in the cells, the velocities through the three facets of a cell differ but add up to zero in each of the two cells.
    The program looks only at that mean: it takes the longest step it knows, 1000000, and the density leaves the bounds 0 and 1 of all its values (it starts at 0 and has 0 or 1 on the sides). *)
Theorem C82_time_step_refuted : exists bcp vsp P V dt Y,
  regular 2 1 sq sq_v sql [0; 0; 0; 0] [0; 0] bcp vsp /\ sides_closed 2 sq sq_v sql bcp vsp /\ poisson 2 sq sq_v sql bcp vsp (fun _ => 0%R) P /\ velocity_of 2 sq sq_v sql bcp vsp P V /\
  largest_driven 2 sq sq_v V vzero 1 dt /\ dirichlet_within 0 1 sq_bc sq_bcv /\ driven_step 2 sq sq_v sql sq_bc sq_bcv 1 V vzero dt (fun _ => 0%R) Y /\ dt = 1000000%R /\ Y 0 = 2000000%R.
Proof.
  destruct (C80_darcy (fun x => x) 2 1 sq sq_v sql [0; 0; 0; 0] [0; 0] (Some (sq_bc, sq_bcv)) (Some (sw_bc, sw_bcv)) sw_regular (proj1 C69_square_conditions) (rg_corners _ _ _ _ _ _ _ _ _ (proj1 C70_square))) as (st & E & H).
  assert (PUT : forall Z0 : Z -> R, exists w, values_of 0%R 1 (se_domains st) Z0 w). { intros Z0. destruct (C70_any_field (fun x => x) _ _ _ _ _ _ _ _ _ Z0 (proj1 C70_square)) as (st2 & ES & l & _ & (w & _ & Hw)). rewrite E in ES. injection ES as <-. exists w. exact Hw. }
  destruct (PUT (fun _ => 0%R)) as (w & Hw).
  assert (S0 : source SMumps sq 1 st [None] (fun _ => 0%R)). { intros r Hr. exists None. assert (r = 0) by lia. subst r. split; [reflexivity|]. cbn. intros; reflexivity. }
  destruct (H SMumps [None] (fun _ => 0%R) w w (fun _ => 0%R) (fun _ => 0%R) false 1 vzero 1%R 1%R (or_introl eq_refl) S0 Hw Hw ltac:(lra) ltac:(unfold vzero; cbn [px py pz]; lra)) as (es & b & _ & R).
  destruct (R (fun _ _ _ => [(- 1 / 8)%R; (- 11 / 24)%R]) 1%nat (fun _ => eq_refl)) as (o & _ & HO). cbv zeta in HO.
  set (P := nthZ 0%R [(- 1 / 8)%R; (- 11 / 24)%R]) in HO.
  assert (EP : forall c, iscell sq c -> P c = sw_P c) by (intros c Hc; destruct (sq_cells c Hc) as [-> | ->]; reflexivity).
  assert (FT : exists t Y, darcy_flow 2 sq sq_v sql sq_bc sq_bcv sw_bc sw_bcv false 1 vzero 1 1 (fun _ => P) (fun _ => 0%R) 1 t Y).
  { destruct o as [(t, s)|].
    - destruct HO as (n & Y & Hn & FL & Ht & _). destruct n as [|[|n]]; [exfalso | exists t, Y; exact FL | lia]. inversion FL; subst. lra.
    - destruct HO as (t & Y & FL & _). exists t, Y. exact FL. }
  destruct FT as (t & Y & FL). inversion FL as [|n2 t2 Y2 V dt Y3 FL2 Ht HV HL HSt]; subst. assert (Y2Z : forall c, iscell sq c -> Y2 c = 0%R) by (inversion FL2; subst; assumption). clear FL FL2 HO Ht.
  destruct (sw_velocity P V EP HV) as (V1 & V2 & V3 & V4 & V5 & V6). destruct C69_square_outward as (O1 & O2 & O3 & O4 & O5 & O6).
  assert (I0 : iscell sq 0) by (unfold iscell; change (zlen sq) with 2; lia).
  assert (MV : forall c, iscell sq c -> mean_velocity 2 sq V c = vzero).
  { intros c Hc. unfold mean_velocity. destruct (sq_cells c Hc) as [-> | ->]; [change (facets (cell sq 0)) with [[1; 2]; [0; 2]; [0; 1]]; cbn [map]; rewrite V1, V2, V3 | change (facets (cell sq 1)) with [[2; 3]; [0; 2]; [0; 3]]; cbn [map]; rewrite V4, V5, V6]; unfold vsum, vadd, vscal, vzero; cbn [fold_right px py pz]; change (2 + 1) with 3; f_equal; field. }
  assert (ED : dt = 1000000%R).
  { apply Rle_antisym; [exact (proj1 (proj1 HL))|]. apply (proj2 HL). split; [lra|]. intros c Hc. rewrite (MV c Hc), (sq_measure c Hc). unfold full_speed. rewrite (rsum_map_ext _ (fun _ => 0%R)); [rewrite rsum_map_zero by reflexivity; lra|]. intros F _. rewrite vdot_zero_l, Rabs_R0. unfold vzero. cbn [px py pz]. unfold Rdiv. ring. }
  exists sw_bc, sw_bcv, P, V, dt, Y. split; [exact sw_regular|]. split; [exact sw_closed|]. split; [|split; [exact HV|]; split; [exact HL|]; split; [exact (proj2 C69_square_conditions)|]; split; [|split; [exact ED|]]].
  - intros c Hc. destruct HV as (N & HN & HV). pose proof (slope_laplacian 2 sq sq_v sql sw_bc sw_bcv C68_square P N (fun F => Spec_linsys.vneg (V c F)) c sw_closed HN Hc (fun F HF => HV c F Hc HF)) as LP.
    match type of LP with laplacian _ _ _ _ _ _ _ _ ?y => replace 0%R with y; [exact LP|] end. rewrite (sq_measure c Hc).
    destruct (sq_cells c Hc) as [-> | ->]; [change (facets (cell sq 0)) with [[1; 2]; [0; 2]; [0; 1]]; cbn [map]; rewrite V1, V2, V3, O1, O2, O3 | change (facets (cell sq 1)) with [[2; 3]; [0; 2]; [0; 3]]; cbn [map]; rewrite V4, V5, V6, O4, O5, O6]; unfold rsum, Spec_linsys.vneg, vdot; cbn [fold_right px py pz]; field.
  - destruct HSt as (S & L & N & G & RC & EY). exists S, L, N, G.
    pose proof (reconstruction_same 2 sq sq_v sql C68_square sq_bc sq_bcv Y2 (fun _ => 0%R) S L N G Y2Z RC) as RC'. split; [exact RC'|]. intros c Hc. rewrite (EY c Hc), (Y2Z c Hc). do 3 f_equal. apply map_ext_in. intros F HF.
    apply entering_same; [exact Y2Z | auto | exact Hc | reflexivity].
  - destruct HSt as (S & L & N & G & RC & EY). rewrite (EY 0 I0), (Y2Z 0 I0), ED, (sq_measure 0 I0). change (facets (cell sq 0)) with [[1; 2]; [0; 2]; [0; 1]]. cbn [map]. unfold entering, diffused, carried, reconstructed. cbv zeta. change (1 - 1) with 0. rewrite V1, V2, V3, O1, O2, O3, (Y2Z 0 I0).
    change (beside sq 0 [1; 2]) with (@None Z). change (beside sq 0 [0; 2]) with (Some 1). change (beside sq 0 [0; 1]) with (@None Z).
    change (boundary_value 2 sq_v sql sq_bc sq_bcv [0; 1] 0) with 1%R. change (boundary_value 2 sq_v sql sq_bc sq_bcv [1; 2] 0) with 0%R. unfold rsum, vdot, vzero. cbn [fold_right px py pz].
    repeat match goal with |- context [Rle_dec ?a ?b] => destruct (Rle_dec a b); [try (exfalso; lra)|try (exfalso; lra)] end; field.
Qed.
Print Assumptions C82_time_step_refuted.
