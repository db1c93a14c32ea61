(** * Examples_linsys: a concrete case for C38-C40, C50, C52, and counterexamples. *)
From Verif Require Import Py PyLemmas Model_part Model_label Model_conn Spec_conn Model_geom Spec_geom Model_interp Spec_interp Proofs_interp1 Proofs_interp2 Proofs_interp4 Properties_interp Examples_interp Model_bc Spec_bc Examples_bc Model_linsys Properties_linsys Properties_linsys2.
From Verif Require Import Spec_linsys.
From Coq Require Import Permutation Lra ZifyBool.
Open Scope Z_scope.

(** the unit square of Examples_bc *)
Definition lx_right : gentry := {| g_pt := P3 (4/3) (1/3) 0; g_cell := 0; g_name := 2; g_last := 0 |}.
Definition lx_bottom : gentry := {| g_pt := P3 (2/3) (-1/3) 0; g_cell := 0; g_name := 4; g_last := 2 |}.
Definition lx_upper : gentry := {| g_pt := P3 (1/3) (4/3) 0; g_cell := 1; g_name := 3; g_last := 3 |}.
Definition lx_left : gentry := {| g_pt := P3 (-1/3) (2/3) 0; g_cell := 1; g_name := 1; g_last := 4 |}.
Definition lx_N : nodedata := {| nd_centerc := [P3 (2/3) (1/3) 0; P3 (1/3) (2/3) 0]; nd_cellid := [[0; 1; 2]; [0; -1; 1]; [0; 1; 2]; [1; -1; 1]]; nd_haloid := [[0]; [0]; [0]; [0]];
  nd_periodic := [[0]; [0]; [0]; [0]]; nd_vertex := bd_vertex ex_D; nd_old := bd_oldname ex_D; nd_name := [1; 2; 2; 1];
  nd_ghost := [[lx_bottom; lx_left]; [lx_right; lx_bottom]; [lx_right; lx_upper]; [lx_upper; lx_left]]; nd_haloghost := [[gpad]; [gpad]; [gpad]; [gpad]]; nd_centerh := []; nd_shift := [P3 0 0 0; P3 0 0 0] |}.
Definition lx_G : facedata := {| fd_cellid := bd_cellid ex_D; fd_nodes := [[1; 2]; [0; 2]; [0; 1]; [2; 3]; [0; 3]];
  fd_ghost := [P3 (4/3) (1/3) 0; P3 0 0 0; P3 (2/3) (-1/3) 0; P3 (1/3) (4/3) 0; P3 (-1/3) (2/3) 0]; fd_name := bd_name ex_D;
  fd_normal := [P3 1 0 0; P3 (-1) 1 0; P3 0 (-1) 0; P3 0 1 0; P3 (-1) 0 0]; fd_centerc := nd_centerc lx_N; fd_centerh := []; fd_halofid := [-1; -1; -1; -1; -1];
  fd_vertex := bd_vertex ex_D; fd_shift := nd_shift lx_N |}.
Definition get_ok {A} (d : A) (m : res A) : A := match m with Ok a => a | Err _ => d end.
Definition lx_S : lsys := {| sy_N := lx_N; sy_nv := get_ok [] (variables 2 lx_N); sy_G := lx_G; sy_D := get_ok [] (face_gradient_info 2 lx_G); sy_vol := [/2; /2]%R; sy_l2g := [0; 1]; sy_hext := []; sy_bcd := [1; 4] |}.
Definition lx_L : sylists := {| sl_inner := matrixinnerfaces 2 (bd_name ex_D); sl_halo := []; sl_dir := [2; 4] |}.
Definition lx_v0 : variable := get_ok {| va_heap := []; va_cell := 0; va_bcs := []; va_dirichletfaces := []; va_neumannfaces := []; va_BCdirichlet := []; va_BCneumann := [] |} (new_variable ex_D (Some ex_bc) (Some ex_vs)).
Definition lx_B : bord := get_ok {| pb_node := []; pb_face := [] |} (pbord ex_D lx_v0).

Ltac four k Hk := let H := fresh in assert (H : k = 0 \/ k = 1 \/ k = 2 \/ k = 3) by (change (nbnodes lx_S) with 4 in *; lia); destruct H as [-> | [-> | [-> | ->]]].
Lemma lx_wfN : wf_nodedata 2 lx_N 5 0.
Proof.
  constructor; [left; reflexivity | repeat split | | | |].
  - intros i Hi. change (zlen (nd_vertex lx_N)) with 4 in Hi. four i Hi; apply row_okb_ok; reflexivity.
  - intros i Hi. change (zlen (nd_vertex lx_N)) with 4 in Hi. four i Hi; apply ghost_okb_ok; reflexivity.
  - intros i Hi E. change (zlen (nd_vertex lx_N)) with 4 in Hi. four i Hi; discriminate E.
  - intros i Hi E. change (zlen (nd_vertex lx_N)) with 4 in Hi. four i Hi; discriminate E.
Qed.
Lemma lx_wfG : wf_facedata 2 lx_G.
Proof.
  constructor; [left; reflexivity | repeat split|]. intros i Hi. change (zlen (fd_cellid lx_G)) with 5 in Hi. cbv zeta.
  assert (HC : i = 0 \/ i = 1 \/ i = 2 \/ i = 3 \/ i = 4) by lia. destruct HC as [-> | [-> | [-> | [-> | ->]]]];
  (split; [reflexivity|]; split; [split; [discriminate | reflexivity]|]; split; [reflexivity|]; split; [intros k Hk; change (zlen (fd_vertex lx_G)) with 4; lazy in Hk; lia|]; split; [intros [H|H]; first [discriminate H | split; [discriminate | reflexivity]] | intros H; discriminate H]).
Qed.
Lemma lx_wf : wf_lsys 2 lx_S lx_L 5 0.
Proof.
  constructor.
  - exact lx_wfN.
  - cbn [lx_S sy_nv sy_N]. rewrite (variables_ok 2 lx_N 5 0 lx_wfN). reflexivity.
  - exact lx_wfG.
  - cbn [lx_S sy_D sy_G]. rewrite (face_info_ok 2 lx_G lx_wfG). reflexivity.
  - repeat split.
  - repeat split.
  - intros h Hh. change (nbhalos lx_S) with 0 in Hh. lia.
  - intros k Hk. four k Hk; (split; [reflexivity|]; split; apply row_okb_ok; reflexivity).
  - intros k e Hk He. four k Hk; destruct He as [<-|He]; try destruct He as [<-|He]; try destruct He; split; discriminate || reflexivity.
  - intros k e Hk He. four k Hk; destruct He.
  - intros f Hf. vm_compute in Hf. destruct Hf as [<-|[]]. split; [split; [discriminate | reflexivity] | left; reflexivity].
  - intros f [].
  - intros f Hf. destruct Hf as [<-|[<-|[]]]; (split; [split; [discriminate | reflexivity]|]); cbv zeta; (split; [discriminate|]; split; [reflexivity | discriminate]).
Qed.

Lemma lx_v0_ok : new_variable ex_D (Some ex_bc) (Some ex_vs) = Ok lx_v0.
Proof. reflexivity. Qed.
Lemma lx_pbord : pbord ex_D lx_v0 = Ok lx_B.
Proof. unfold lx_B. assert (X : exists B, pbord ex_D lx_v0 = Ok B) by (eexists; lazy -[Rmult Rplus Ropp Rinv IZR]; reflexivity). destruct X as (B & E). rewrite E. reflexivity. Qed.
Example lx_B_is : lx_B = {| pb_node := [3; 1; 1; 3]%R; pb_face := [0; 0; /2 + 2 * 0; 0; 3]%R |}.
Proof. cbv -[Rmult Rplus Ropp Rinv IZR]. reflexivity. Qed.
Lemma lx_bord : wf_bord lx_S lx_L lx_B.
Proof.
  split; [reflexivity|]. split; [reflexivity|]. intros f k Hf Hk. destruct Hf as [<-|[<-|[]]]; (destruct Hk as [<-|[<-|[]]]; discriminate).
Qed.
Lemma lx_regular : regular 2 lx_S lx_L.
Proof.
  constructor.
  - intros c Hc. change (nbcells lx_S) with 2 in Hc. assert (HC : c = 0 \/ c = 1) by lia. destruct HC as [-> | ->]; change ((/2)%R <> 0%R); lra.
  - repeat (constructor; [cbn; lia|]). constructor.
  - intros k Hk _. four k Hk; split; reflexivity.
  - intros k Hk E. four k Hk; contradiction E; reflexivity.
  - intros f Hf. assert (HC : f = 1 \/ f = 2 \/ f = 4). { destruct Hf as [H|[[]|H]]; [vm_compute in H|]; cbn in H; lia. }
    split; [intros X; discriminate X|]. destruct HC as [-> | [-> | ->]]; cbv -[Rmult Rplus Rminus Rdiv Ropp Rinv IZR]; lra.
Qed.
Definition lx_W : values := {| w_c := [5; 7]%R; w_ghost := [5; 0; 5; 7; 7]%R; w_halo := []; w_haloghost := [] |}.
Definition lx_x (i : Z) : R := nthZ 0%R [5; 7]%R i.
Example C39_example : wf_lsys (bd_dim ex_D) lx_S lx_L 5 0 /\ wf_bord lx_S lx_L lx_B /\ regular 2 lx_S lx_L /\ samples lx_S lx_x lx_W /\ wf_values lx_W (nbcells lx_S) 5 (nbhalos lx_S) 0 /\
  (exists wn, centertovertex 2 (sy_N lx_S) (sy_nv lx_S) lx_W = Ok wn /\ nodes_finite lx_S lx_L wn) /\
  NoDup (sy_l2g lx_S) /\ (forall g, In g (sy_l2g lx_S) -> 0 <= g < 2) /\ sl_inner lx_L = [1].
Proof.
  split; [exact lx_wf|]. split; [exact lx_bord|]. split; [exact lx_regular|]. split; [|split; [repeat split|]].
  - split; [|split; [|split]].
    + intros c Hc. change (nbcells lx_S) with 2 in Hc. assert (HC : c = 0 \/ c = 1) by lia. destruct HC as [-> | ->]; reflexivity.
    + intros h Hh. change (nbhalos lx_S) with 0 in Hh. lia.
    + intros k e Hk He. four k Hk; destruct He as [<-|He]; try destruct He as [<-|He]; try destruct He; reflexivity.
    + intros k e Hk He. four k Hk; destruct He.
  - split; [|split; [repeat (constructor; [cbn; lia|]); constructor | split; [intros g [<-|[<-|[]]]; lia | vm_compute; reflexivity]]].
    assert (WV : wf_values lx_W (zlen (nd_centerc lx_N)) 5 (zlen (nd_centerh lx_N)) 0) by (repeat split). destruct (C24_vertex_interpolation 2 lx_N 5 0 lx_wfN) as (nvs & E1 & E2 & E3). destruct (E2 lx_W WV) as (wn & E & _).
    cbn [lx_S sy_nv sy_N]. rewrite E1. cbn [get_ok]. exists wn. split; [exact E|]. intros f k [Hf|[]] Hk ND. lazy in Hf. destruct Hf as [<-|[]]. lazy in Hk. destruct Hk as [<-|[<-|[]]].
    + contradiction ND. left. reflexivity.
    + destruct (E3 2) as (a & _ & _ & HA); [split; [discriminate | reflexivity] | |]. { exists (P3 (2/3) (1/3) 0), (P3 (1/3) (2/3) 0), (P3 (4/3) (1/3) 0). split; [left; reflexivity|]. split; [right; left; reflexivity|]. split; [right; right; left; reflexivity|]. cbv -[Rmult Rplus Rminus Rdiv Ropp Rinv IZR]. lra. }
      destruct (HA lx_W wn WV E) as (X & _). rewrite X. discriminate.
Qed.

(** FINDING: with periodic boundaries in 3D the assembly moves cell centres: [center = centerc[...]] is a view, and [center[0] = centerc[cell][0] + shift[cell][0]]
    (pyccel_functions.py:1369) writes through it into the centre of the cell visited before. *)
Definition p3_N : nodedata := {| nd_centerc := [P3 (-1/4) (1/4) (1/4); P3 (1/4) (1/4) (1/4)]; nd_cellid := [[0; 1; 2]; [0; 1; 2]; [0; 1; 2]]; nd_haloid := [[0]; [0]; [0]];
  nd_periodic := [[1; 1]; [0]; [0]]; nd_vertex := [P3 0 0 0; P3 0 1 0; P3 0 0 1]; nd_old := [11; 0; 0]; nd_name := [11; 0; 0];
  nd_ghost := [[gpad]; [gpad]; [gpad]]; nd_haloghost := [[gpad]; [gpad]; [gpad]]; nd_centerh := []; nd_shift := [P3 (-1) 0 0; P3 1 0 0] |}.
Definition p3_G : facedata := {| fd_cellid := [[0; 1]]; fd_nodes := [[0; 1; 2]]; fd_ghost := [P3 0 0 0]; fd_name := [0]; fd_normal := [P3 (/2) 0 0]; fd_centerc := nd_centerc p3_N; fd_centerh := []; fd_halofid := [-1];
  fd_vertex := nd_vertex p3_N; fd_shift := nd_shift p3_N |}.
Definition p3_S : lsys := {| sy_N := p3_N; sy_nv := get_ok [] (variables 3 p3_N); sy_G := p3_G; sy_D := get_ok [] (face_gradient_info 3 p3_G); sy_vol := [1; 1]%R; sy_l2g := [0; 1]; sy_hext := []; sy_bcd := [] |}.
Definition p3_L : sylists := {| sl_inner := [0]; sl_halo := []; sl_dir := [] |}.
Ltac three k Hk := let H := fresh in assert (H : k = 0 \/ k = 1 \/ k = 2) by lia; destruct H as [-> | [-> | ->]].
Lemma p3_wf : wf_lsys 3 p3_S p3_L 0 0.
Proof.
  assert (WN : wf_nodedata 3 p3_N 0 0).
  { constructor; [right; reflexivity | repeat split | | | |]; intros i Hi; change (zlen (nd_vertex p3_N)) with 3 in Hi; three i Hi; try (apply row_okb_ok; reflexivity); try (apply ghost_okb_ok; reflexivity); intros E; try discriminate E; apply row_okb_ok; reflexivity. }
  assert (WG : wf_facedata 3 p3_G).
  { constructor; [right; reflexivity | repeat split|]. intros i Hi. change (zlen (fd_cellid p3_G)) with 1 in Hi. assert (i = 0) by lia. subst i. cbv zeta.
    split; [reflexivity|]; split; [split; [discriminate | reflexivity]|]; split; [reflexivity|]; split; [intros k Hk; change (zlen (fd_vertex p3_G)) with 3; lazy in Hk; lia|]; split; [intros _; split; [discriminate | reflexivity] | intros H; discriminate H]. }
  constructor.
  - exact WN.
  - cbn [p3_S sy_nv sy_N]. rewrite (variables_ok 3 p3_N 0 0 WN). reflexivity.
  - exact WG.
  - cbn [p3_S sy_D sy_G]. rewrite (face_info_ok 3 p3_G WG). reflexivity.
  - repeat split.
  - repeat split.
  - intros h Hh. change (nbhalos p3_S) with 0 in Hh. lia.
  - intros k Hk. change (nbnodes p3_S) with 3 in Hk. three k Hk; (split; [reflexivity|]; split; apply row_okb_ok; reflexivity).
  - intros k e Hk He. change (nbnodes p3_S) with 3 in Hk. three k Hk; destruct He.
  - intros k e Hk He. change (nbnodes p3_S) with 3 in Hk. three k Hk; destruct He.
  - intros f [<-|[]]. split; [split; [discriminate | reflexivity] | left; reflexivity].
  - intros f [].
  - intros f [].
Qed.
Theorem C54_centers_refuted : exists S L nf nhg b es cc, wf_lsys 3 S L nf nhg /\ matrix_size 3 S L = Ok (zlen b) /\ get_triplet_3d S L b = Ok (es, cc) /\ cc <> nd_centerc (sy_N S).
Proof.
  exists p3_S, p3_L, 0, 0, (repeat e0 22).
  assert (X : forall n0 n1 n2 d, exists es, get_triplet_3d {| sy_N := p3_N; sy_nv := [n0; n1; n2]; sy_G := p3_G; sy_D := [d]; sy_vol := [1; 1]%R; sy_l2g := [0; 1]; sy_hext := []; sy_bcd := [] |} p3_L (repeat e0 22) = Ok (es, [P3 (-1/4) (1/4) (1/4); P3 (1/4 + 1) (1/4) (1/4)])).
  { intros n0 n1 n2 d. eexists. lazy -[Rplus Rmult Rminus Rdiv Rinv Ropp IZR Req_EM_T alpha omul odivo oopp disp]. reflexivity. }
  assert (E : exists es, get_triplet_3d p3_S p3_L (repeat e0 22) = Ok (es, [P3 (-1/4) (1/4) (1/4); P3 (1/4 + 1) (1/4) (1/4)])).
  { assert (E1 : exists n0 n1 n2, sy_nv p3_S = [n0; n1; n2]). { pose proof (wy_nv _ _ _ _ _ p3_wf) as E. pose proof (mapM_zlen _ _ _ E) as L. change (zlen (range (zlen (nd_vertex (sy_N p3_S))))) with 3 in L. destruct (sy_nv p3_S) as [|a [|b [|c [|? ?]]]]; try discriminate L; [eauto|]. unfold zlen in L. cbn [length] in L. lia. }
    assert (E2 : exists d, sy_D p3_S = [d]). { pose proof (wy_D _ _ _ _ _ p3_wf) as E. pose proof (mapM_zlen _ _ _ E) as L. change (zlen (range (zlen (fd_cellid (sy_G p3_S))))) with 1 in L. destruct (sy_D p3_S) as [|a [|? ?]]; try discriminate L; [eauto|]. unfold zlen in L. cbn [length] in L. lia. }
    destruct E1 as (n0 & n1 & n2 & E1), E2 as (d & E2). specialize (X n0 n1 n2 d). rewrite <- E1, <- E2 in X. exact X. }
  destruct E as (es & E). exists es, [P3 (-1/4) (1/4) (1/4); P3 (1/4 + 1) (1/4) (1/4)]. split; [exact p3_wf|]. split; [rewrite (size_ok 3 p3_S p3_L 0 0 p3_wf); lazy; reflexivity|]. split; [exact E|]. intros Y. injection Y. lra.
Qed.
Print Assumptions C54_centers_refuted.

(** FINDING: at the corner of a Dirichlet side with a Neumann side the node carries the label of the Neumann side, and the constructor stores the value 1 there, which is then
    taken as if it were Dirichlet data on the last loop of compute_P_gradient: the field of a constant potential is not 0. *)
Definition cx_vs := [(LIn, VNum 3); (LBottom, VNum 3)].
Definition cx_v : variable := get_ok {| va_heap := []; va_cell := 0; va_bcs := []; va_dirichletfaces := []; va_neumannfaces := []; va_BCdirichlet := []; va_BCneumann := [] |} (new_variable ex_D (Some ex_bc) (Some cx_vs)).
Definition cx_B : bord := {| pb_node := [3; 1; 1; 3]%R; pb_face := [0; 0; 3; 0; 3]%R |}.
Definition cx_W : values := {| w_c := [3; 3]%R; w_ghost := [3; 3; 3; 3; 3]%R; w_halo := []; w_haloghost := [] |}.
Definition cx_L : facelists := {| fl_inner := [1]; fl_periodic := []; fl_halo := []; fl_dirichlet := [2; 4]; fl_neumann := [0; 3] |}.
Lemma cx_settings : bc_settings ex_D ex_bc cx_vs.
Proof.
  destruct C35_settings_example as (_ & (A & B & C & D & E) & _). split; [exact A|]. split; [|split; [exact C | split; [exact D | exact E]]].
  destruct B as (B1 & B2). split; [exact B1|]. intros l H. cbn in H. destruct H as [H|[H|[H|[H|[]]]]]; try discriminate H; injection H as <-; discriminate.
Qed.
Lemma cx_pbord : pbord ex_D cx_v = Ok cx_B.
Proof. lazy -[IZR]. reflexivity. Qed.
Theorem C53_corner_refuted : exists S D bc vs v B L W w_node g gs i e, wf_facedata 2 (sy_G S) /\ face_gradient_info 2 (sy_G S) = Ok (sy_D S) /\ lists_ok 2 (sy_G S) L /\
  wf_bcdom D /\ bc_settings D bc vs /\ (forall l x, In (l, x) vs -> x = VNum 3) /\ new_variable D (Some bc) (Some vs) = Ok v /\ pbord D v = Ok B /\
  w_c W = [3; 3]%R /\ w_ghost W = [3; 3; 3; 3; 3]%R /\ w_node = [3; 3; 3; 3]%R /\ (forall f, In f (fl_dirichlet L) -> nthZ 0%R (pb_face B) f = 3%R) /\
  compute_P_gradient 2 S B W w_node L g = Ok gs /\ listed L i /\ nthZ None gs i = Some e /\ e <> P3 0 0 0.
Proof.
  exists lx_S, ex_D, ex_bc, cx_vs, cx_v, cx_B, cx_L, cx_W, [3; 3; 3; 3]%R, (repeat None 5).
  assert (LO : lists_ok 2 lx_G cx_L).
  { split; [|split; [|split]].
    - intros i [<-|[]]. split; [split; [discriminate | reflexivity] | reflexivity].
    - intros i [].
    - intros i [].
    - intros i [[<-|[<-|[]]]|[<-|[<-|[]]]]; (split; [split; [discriminate | reflexivity]|]; split; [discriminate|]; split; [reflexivity | discriminate]). }
  pose proof (wy_D _ _ _ _ _ lx_wf) as ED.
  destruct (C53_solution_gradient 2 lx_S cx_B cx_L cx_W [3; 3; 3; 3]%R (repeat None 5) lx_wfG ED LO eq_refl eq_refl eq_refl eq_refl eq_refl eq_refl eq_refl eq_refl) as (gs & E & Z & HG).
  destruct (HG 2) as (_ & D); [split; [discriminate | reflexivity]|].
  assert (HL : listed cx_L 2) by (right; right; right; left; left; reflexivity).
  destruct (D HL) as (e & wr & vn & EV & HV & _ & (_ & _ & HD)); [intros X; discriminate X | cbv -[Rmult Rplus Rminus Rdiv Ropp Rinv IZR]; lra |].
  exists gs, 2, (vneg e). split; [exact lx_wfG|]. split; [exact ED|]. split; [exact LO|]. split; [exact ex_wf|]. split; [exact cx_settings|].
  split; [intros l x [X|[X|[]]]; injection X as <- <-; reflexivity|]. split; [reflexivity|]. split; [exact cx_pbord|]. split; [reflexivity|]. split; [reflexivity|]. split; [reflexivity|].
  split; [intros f [<-|[<-|[]]]; reflexivity|]. split; [exact E|]. split; [exact HL|]. split; [exact EV|].
  intros X. assert (N0 : In 0 (nodes_of lx_S 2)) by (left; reflexivity). assert (N1 : In 1 (nodes_of lx_S 2)) by (right; left; reflexivity).
  specialize (HD 0 1 N0 N1). rewrite (proj1 (HV 0 N0) (or_introl (or_introl eq_refl))), (proj1 (HV 1 N1) (or_introl (or_introl eq_refl))) in HD.
  destruct e as [ex ey ez]. unfold vneg in X. cbn [px py pz] in X. injection X as X1 X2 X3.
  cbv -[Rmult Rplus Rminus Rdiv Ropp Rinv IZR] in HD. assert (ex = 0%R) by lra. assert (ey = 0%R) by lra. assert (ez = 0%R) by lra. subst. lra.
Qed.
Print Assumptions C53_corner_refuted.
