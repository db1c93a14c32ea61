(** * Examples_fvm: the hypotheses of C29-C34 hold in concrete cases. *)
From Verif Require Import Py PyLemmas Model_part Model_conn Spec_conn Model_geom Spec_geom Model_interp Spec_interp Model_fvm Spec_fvm Proofs_conn1 Proofs_interp1 Proofs_fvm1 Proofs_fvm2 Properties_fvm Examples_interp.
From Coq Require Import Permutation Lra ZifyBool.
Open Scope Z_scope.

(** the unit square cut along its diagonal: cell 0 at the origin, cell 1 opposite; faces bottom, diagonal, left, right, top *)
Definition ex_X : fvdata := {| fv_cellid := [[0; -1]; [0; 1]; [0; -1]; [1; -1]; [1; -1]]; fv_name := [3; 0; 1; 2; 4];
  fv_normal := [P3 0 (-1) 0; P3 1 1 0; P3 (-1) 0 0; P3 1 0 0; P3 0 1 0]; fv_centerf := [P3 (1/2) 0 0; P3 (1/2) (1/2) 0; P3 0 (1/2) 0; P3 1 (1/2) 0; P3 (1/2) 1 0];
  fv_halofid := [0; 0; 0; 0; 0]; fv_centerc := [P3 (1/3) (1/3) 0; P3 (2/3) (2/3) 0]; fv_centerh := []; fv_shift := [vzero; vzero] |}.
Definition ex_L : fvlists := {| ls_inner := [1]; ls_periodic := []; ls_halo := []; ls_boundary := [0; 2; 3; 4] |}.
Definition ex_A (a b : R) : advected := {| ad_c := [a; b]; ad_ghost := [a; 0; a; b; b]%R; ad_halo := []; ad_grad := [P3 1 2 0; P3 3 4 0]; ad_gradh := []; ad_psi := [1; 1]%R; ad_psih := [] |}.
Definition ex_vel : list pt := repeat (P3 2 1 0) 5.
Ltac rz := lazy -[Rlt Rle Rdiv Rmult Rplus Rminus Ropp Rinv IZR sqrt Rmin Rmax].
Ltac five H := match type of H with 0 <= ?f < _ => assert (f = 0 \/ f = 1 \/ f = 2 \/ f = 3 \/ f = 4) as Hcase by (cbn in H; lia); destruct Hcase as [-> | [-> | [-> | [-> | ->]]]] end.
Ltac two H := match type of H with 0 <= ?f < _ => assert (f = 0 \/ f = 1) as Hcase by (cbn in H; lia); destruct Hcase as [-> | ->] end.

Example ex_wf : wf_fvdata 2 ex_X.
Proof. constructor; [left; reflexivity | cbn; lia|]. intros f Hf. five Hf; (split; [reflexivity|]); (split; [split; [discriminate | reflexivity]|]); (split; [intros [E|E]; (discriminate E || (split; [discriminate | reflexivity])) | intros E; discriminate E]). Qed.
Example ex_wl : wf_lists 2 ex_X ex_L.
Proof. unfold wf_lists. cbn [ls_inner ls_periodic ls_halo ls_boundary ex_L]. split; [|split; [|split]]; intros f Hf; cbn in Hf; repeat (destruct Hf as [<- | Hf]); try contradiction; repeat split; discriminate. Qed.
Example ex_wa a b : wf_advected ex_X (ex_A a b) ex_vel.
Proof. repeat split. Qed.
Example ex_closed c : 0 <= c < 2 -> closed_cell ex_X ex_L c.
Proof. intros Hc. two Hc; lazy -[Rplus Rmult Rminus Ropp IZR]; f_equal; ring. Qed.
Example ex_const k : constant_field ex_L k 1 (ex_A k k).
Proof. unfold constant_field. cbn. split; [intuition congruence|]. split; [contradiction|]. split; [intros f Hf; repeat (destruct Hf as [<- | Hf]); try contradiction; reflexivity | left; reflexivity]. Qed.
Definition ex_faceid : list (list Z) := [[0; 1; 2]; [1; 3; 4]].
Example ex_lf : lists_faces ex_X ex_L ex_faceid.
Proof.
  split; [reflexivity|]. split; [intros f Hf E; cbn in Hf; repeat (destruct Hf as [<- | Hf]); try contradiction; lazy in E; lazy; discriminate|].
  intros c Hc. two Hc; lazy; [apply perm_swap | apply Permutation_refl].
Qed.
Definition ex_mes : list R := [1; sqrt 2; 1; 1; 1]%R.
Example ex_wt : wf_timestep 2 [P3 2 1 0; P3 2 1 0] (fv_normal ex_X) ex_mes [1/2; 1/2]%R ex_faceid.
Proof.
  constructor; [left; reflexivity | repeat split | intros i Hi; two Hi; rz; lra|]. intros i Hi. two Hi; (split; [reflexivity|]); intros f Hf; cbn in Hf; repeat (destruct Hf as [<- | Hf]); try contradiction; (split; [split; [discriminate | reflexivity]|]); rz; try lra; apply sqrt_lt_R0; lra.
Qed.
(** C32 and C34 on this mesh: a uniform field stays; two values a, b stay between their minimum and maximum for cfl = 1 *)
Example ex_C32 : forall k dt, exists rez new, convective 2 1 ex_X ex_L (ex_A k k) ex_vel 2 = Ok rez /\ update_new_value [k; k] rez (zeros_like 0%R 2) (zeros_like 0%R 2) [1/2; 1/2]%R dt = Ok new /\
  forall c, 0 <= c < 2 -> nthZ None new c = Some k.
Proof.
  intros k dt. destruct (C32_uniform_state 2 1 ex_X ex_L (ex_A k k) ex_vel k (P3 2 1 0) [1/2; 1/2]%R dt ex_wf ex_wl (ex_wa k k) (ex_const k)) as (rez & new & E1 & E2 & H).
  - intros f Hf. cbn in Hf. repeat (destruct Hf as [<- | Hf]); try contradiction; reflexivity.
  - reflexivity.
  - intros c Hc. two Hc; rz; lra.
  - exists rez, new. split; [exact E1|]. split; [exact E2|]. intros c Hc. apply H; [exact Hc | apply ex_closed; exact Hc].
Qed.
Example ex_C34 : forall a b, exists dt rez new, time_step 2 [P3 2 1 0; P3 2 1 0] (fv_normal ex_X) 1 ex_mes [1/2; 1/2]%R ex_faceid vzero = Ok (Some dt) /\ (0 < dt)%R /\
  convective 2 1 ex_X ex_L (ex_A a b) ex_vel 2 = Ok rez /\ update_new_value [a; b] rez (zeros_like 0%R 2) (zeros_like 0%R 2) [1/2; 1/2]%R dt = Ok new /\
  forall c, 0 <= c < 2 -> exists x, nthZ None new c = Some x /\ (Rmin a b <= x <= Rmax a b)%R.
Proof.
  intros a b. destruct (C33_time_step 2 [P3 2 1 0; P3 2 1 0] (fv_normal ex_X) 1 ex_mes [1/2; 1/2]%R ex_faceid vzero ex_wt) as (dt & ET & B & _); [lra | cbn; lra|].
  destruct (C34_cfl_time_step 2 ex_X ex_L (ex_A a b) (P3 2 1 0) ex_vel [P3 2 1 0; P3 2 1 0] ex_faceid ex_mes [1/2; 1/2]%R 1 vzero dt dt ex_wf ex_wl (ex_wa a b) ex_lf ex_wt) as (rez & new & E1 & E2 & H).
  - intros f Hf. cbn in Hf. repeat (destruct Hf as [<- | Hf]); try contradiction; reflexivity.
  - intros c Hc. two Hc; reflexivity.
  - lra.
  - cbn; lra.
  - exact ET.
  - lra.
  - exists dt, rez, new. split; [exact ET|]. split; [lra|]. split; [exact E1|]. split; [exact E2|]. intros c Hc. apply H; [exact Hc | apply ex_closed; exact Hc | |].
    + pose proof (Rmin_l a b). pose proof (Rmin_r a b). pose proof (Rmax_l a b). pose proof (Rmax_r a b). two Hc; rz; lra.
    + pose proof (Rmin_l a b). pose proof (Rmin_r a b). pose proof (Rmax_l a b). pose proof (Rmax_r a b).
      intros f Hf T. cbn in Hf. assert (Hr : 0 <= f < 5) by (repeat (destruct Hf as [<- | Hf]; [lia|]); contradiction). clear Hf T. two Hc; five Hr; rz; lra.
Qed.

(** periodic partners: two cells side by side, their outer vertical faces identified (domain of width 2) *)
Definition pr_X : fvdata := {| fv_cellid := [[0; 1]; [1; 0]; [0; 1]]; fv_name := [11; 22; 0]; fv_normal := [P3 (-1) 0 0; P3 1 0 0; P3 1 0 0]; fv_centerf := [P3 0 0 0; P3 2 0 0; P3 1 0 0];
  fv_halofid := [0; 0; 0]; fv_centerc := [P3 (1/2) 0 0; P3 (3/2) 0 0]; fv_centerh := []; fv_shift := [P3 2 0 0; P3 (-2) 0 0] |}.
Example pr_partners : partners 2 pr_X (repeat (P3 1 0 0) 3) 0 1.
Proof.
  unfold partners. split; [reflexivity|]. split; [reflexivity|]. split; [intros w; rz; ring|]. split; [reflexivity|].
  split; intros [x y z]; rz; f_equal; ring.
Qed.
(** a face shared by two ranks *)
Example cut_sides : forall A B : R,
  let X := {| fv_cellid := [[0; -1]]; fv_name := [10]; fv_normal := [P3 1 0 0]; fv_centerf := [P3 1 0 0]; fv_halofid := [0]; fv_centerc := [P3 (1/2) 0 0]; fv_centerh := [P3 (3/2) 0 0]; fv_shift := [vzero] |} in
  let X' := {| fv_cellid := [[0; -1]]; fv_name := [10]; fv_normal := [P3 (-1) 0 0]; fv_centerf := [P3 1 0 0]; fv_halofid := [0]; fv_centerc := [P3 (3/2) 0 0]; fv_centerh := [P3 (1/2) 0 0]; fv_shift := [vzero] |} in
  let Q a b := {| ad_c := [a]; ad_ghost := [0%R]; ad_halo := [b]; ad_grad := [vzero]; ad_gradh := [vzero]; ad_psi := [1%R]; ad_psih := [1%R] |} in
  two_sides X (Q A B) [P3 1 1 0] 0 X' (Q B A) [P3 1 1 0] 0.
Proof. intros A B X X' Q. unfold two_sides. split; [intros w; rz; ring|]. repeat split. Qed.
