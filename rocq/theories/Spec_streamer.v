(** * Spec_streamer: vocabulary for C47-C49, C61, C62. *)
From Coq Require Import String Reals Rpower.
From Verif Require Import Py Model_part Model_conn Spec_conn Model_geom Spec_geom Model_interp Spec_interp Model_fvm Spec_fvm.
Open Scope Z_scope.

(** density of the gas *)
Definition N_gas : R := 25000000000000000000%R.
(** the drift speed, piecewise affine in the reduced field r = |E| / N *)
Definition drift_speed (r : R) : R :=
  if Rle_dec r 0 then 0%R
  else if Rle_dec r (26 / 1000000000000000000) then (68700000000000000000000 * r + 33800)%R
  else if Rle_dec r (1 / 10000000000000000) then (7297300000000000000000 * r + 1630000)%R
  else if Rle_dec r (2 / 1000000000000000) then (10300000000000000000000 * r + 1300000)%R
  else (7400000000000000000000 * r + 7100000)%R.
(** v is anti-parallel to e *)
Definition antiparallel (v e : pt) : Prop := exists k, (0 < k)%R /\ v = vscal (- k) e.
(** the diffusion coefficient for the field e and the velocity v: none without a field *)
Definition electron_diffusivity (e v : pt) : R :=
  if Req_EM_T (vlen e) 0 then 0%R else (334100000 * Rpower (vlen e / N_gas) (54069 / 100000) * (vlen v / vlen e))%R.
(** diffusive flux of the electrons through face f, into its first cell *)
Definition electron_diffusion (X : fvdata) (vel Ef grads : list pt) (f : Z) : R :=
  (electron_diffusivity (nthZ vzero Ef f) (nthZ vzero vel f) * vdot (nthZ vzero grads f) (nthZ vzero (fv_normal X) f))%R.
(** total number of electrons minus ions *)
Definition net_charge (vol ne ni : list R) : R := rsum (map (fun c => nthZ 0 vol c * (nthZ 0 ne c - nthZ 0 ni c))%R (range (zlen vol))).
(** right-hand side of the Poisson equation *)
Definition poisson_rhs (ne ni : R) : R := (18096 / 1000000000000 * (ne - ni))%R.
(** the terms the update reads *)
Definition needed_terms : list string := ["convective"; "dissipation"; "source"]%string.
(** dim+1 existing faces per cell *)
Definition face_rows (dim nf : Z) (faceid : list (list Z)) : Prop := forall c, 0 <= c < zlen faceid -> zlen (nthZ [] faceid c) = dim + 1 /\ forall f, In f (nthZ [] faceid c) -> 0 <= f < nf.
(** C61: wave speed of a cell with field E: the advective part, plus the diffusive part *)
Definition streamer_speed (vel E normal : list pt) (volume : list R) (faceid : list (list Z)) (i : Z) : R :=
  wave_speed vel normal volume faceid (P3 (electron_diffusivity (nthZ vzero E i) (nthZ vzero vel i)) 0 0) i.
