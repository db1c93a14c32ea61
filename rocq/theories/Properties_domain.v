(** * Properties_domain: C66, the constructor of a domain.
    Vocabulary: [Spec_domain]. *)
From Coq Require Import Reals Permutation.
From Verif Require Import Py PyLemmas Model_part Model_conn Spec_conn Model_geom Spec_geom Model_interp Spec_interp Model_fvm Spec_fvm Model_domain Spec_domain
  Proofs_domain2 Proofs_domain3 Proofs_domain4.
Open Scope Z_scope.

(** C66.  On every mesh without periodic boundaries, in 2D and 3D, alone or as one of several ranks, the constructor succeeds; its tables
    describe the mesh; and they satisfy the hypotheses under which the kernels of the library are proved correct (interpolation, gradients,
    limiter, convection, diffusion, time step, boundary conditions, linear system, shallow-water source), for the arguments the code calls them with. *)
Theorem C66_domain_construction : forall f32 dim size nodeid vertex namen K, valid_rank dim size nodeid vertex namen K ->
  exists D, build_domain f32 dim size nodeid vertex namen K = Ok D /\ faithful dim size nodeid vertex namen K D /\ consistent dim D.
Proof.
  intros f32 dim size nodeid vertex namen K VR. destruct (parts_exist dim size nodeid vertex namen K VR) as (g & cn & h & nodecell & cellnid & P).
  destruct (build_ok f32 dim size nodeid vertex namen K g cn h nodecell cellnid VR P) as (nv & di & E & EV & EF). cbv zeta in *.
  eexists. split; [exact E|]. split; [apply (faithful_ok dim size nodeid vertex namen K VR g cn h nodecell cellnid P) | apply (consistent_ok dim size nodeid vertex namen K VR g cn h nodecell cellnid P); assumption].
Qed.
Print Assumptions C66_domain_construction.
