# Formal model of pyccel/manapy in Rocq (Coq 8.16.1)

## 1. Layout

| layer | files (`rocq/theories/`) | content |
|---|---|---|
| library | `Py.v`, `PyLemmas.v`, `Scatter.v` | result monad with Python exceptions as values, numpy-style indexing (negative wrap, IndexError), `range` loops, dictionaries |
| model | `Model_*.v` | the code, function by function, each definition cites `/repo` file + lines and says where it simplifies |
| spec | `Spec_*.v` | small definitions used to state properties, independent of the model's helpers |
| proofs | `Proofs_*.v` | lemmas |
| theorems | `Properties_*.v` | theorems `Cnn_...`, each followed by `Print Assumptions` |
| cases | `Examples_*.v` (and the end of some `Properties_*.v`) | concrete meshes/states that meet the hypotheses, and the `_refuted` theorems |

Naming: `Cnn_x` proves (part of) property Cnn; `Cnn_x_refuted` proves by a concrete witness that a stronger or the naive reading of
Cnn is false of the code (these are findings, see section 7); `Cnn_x_partial` marks an incomplete property.

## 2. Modelling decisions

* Integers (`int`, numpy int32/int64) are unbounded `Z`; no property here is about wrap-around.
* `float64` is idealised as Coq's real numbers `R`.  Rounding and overflow are not modelled.  Where a division by zero is reachable
  its result is modelled explicitly: `odiv` returns `None` ("not a number / infinite"), and code that tests or compares such a
  value is modelled on the `option` (e.g. `min(dt, x/0)`), each time with a comment saying what IEEE does there.
* numpy arrays are lists.  Out-of-range reads/writes are `Err IndexError`; Python's negative indices wrap.  (Compiled
  kernels do not check bounds: an `Err IndexError` of the model is undefined behaviour there.)  Every success theorem therefore
  also says that no index is out of range.
* A function that mutates its array arguments becomes a function returning the new arrays.  Where aliasing matters (a boundary
  object keeping a reference to `var.cell`, the 3D assembly writing through a view of `cells.center`, class-level dictionaries
  shared by models, a caller's list extended in place) the model has explicit references/histories.
* Loops over `range` are monadic folds without fuel.  Only the `while time < tfinal` loops of the time-marching programs (Model_run, Model_run2,
  Model_run3, Model_run4, Model_run5) take a number of turns: the theorems quantify over it, and say for which numbers the program ends.
* Files are lists of lines, lines are lists of tokens (keyword / integer / real); `str(float)` and `float(str)` are
  taken to be mutually inverse (true for the `repr`-style printing of float64 and the `%.18e` of `savetxt`).
* METIS and MPI are external: the partition (`epart`, `npart`) is an arbitrary input (with METIS's contract as a hypothesis where
  it is needed, and a proof that it is needed); `alltoall` / `Neighbor_alltoallv` / `reduce` are modelled by their MPI
  specification over the tuple of all ranks' buffers.
* Sparse solvers (scipy, MUMPS, PETSc) are external: the solution vector is an arbitrary input.
* The 2D and 3D variants of a kernel that differ only in the third component share one definition with `dim` as a parameter;
  the comment cites both line ranges.

## 3. Per property: what is modelled, how it is proved

| id | model | proof |
|---|---|---|
| C01-C07 | `Model_part`: `create_npart_cpart` + `readmesh` SIZE>1 branch, all intermediate dictionaries | invariants of the nested loops; np.unique characterised as sorted+nodup+same elements |
| C08 | `Model_file`: writer and `read_mesh_file` over token lines | induction on section contents |
| C09 | `Model_label`: `define_ghost_node` | three fold invariants (last/first match) |
| C10 | `Model_conn`: `create_node_cellid` | append-if-absent invariant |
| C11-C14 | `Model_conn`: `create_2dfaces/3dfaces`, `np.unique(axis=0)`, `create_cell_faceid`, `create_cellsOfFace`, `create_NeighborCellByFace`, `create_*oppNodeOfFaces` | fold invariants |
| C15-C16 | `Model_label`: face naming cascades, category lists of `Domain.__init__` | case analysis on labels; refutation by witness |
| C17-C21, C23 | `Model_geom`: geometry kernels over `R` | field / nra identities lifted to loops |
| C22 | `Model_halo`: halo structure functions | dictionary invariant |
| C24-C28 | `Model_interp`: `variables`, `centertovertex`, `cell_gradient`, `face_gradient`, `barthlimiter`, `facetocell` | sums over stencils as folds; least-squares normal equations; linear algebra identities; `Spec_lsq`/`Proofs_lsq`: on arbitrary data, solution of the normal equations ⇒ unique minimiser (Pythagoras) |
| C29-C34 | `Model_fvm`: `pyccel_fvm`, `time_step`, `update_new_value` | sum-of-updates lemma; closing normals; convexity |
| C35-C37, C51, C52 | `Model_bc`: ghost kernels; `Boundary`/`Variable` constructors with explicit aliasing of arrays and histories of changes | frame lemmas; induction over histories; witnesses for violations |
| C38-C41, C50, C53, C54 | `Model_linsys`, `Model_comm`: triplet assembly, size computation, rhs, constructor, gradient, scatter | counting; linearity of folds; equality with an independent diamond-scheme operator |
| C42 | `Model_comm`: all ranks' tables + MPI spec | uses C04/C06 |
| C43-C46, C55-C60 | `Model_sw`: shallow-water kernels, constructor, `update_solution` | algebra of the SRNH matrix; telescoping; well-balancing identity; step invariants |
| C47-C49, C61, C62 | `Model_streamer`: streamer kernels, constructor, `update_solution` | case analysis of the drift law; telescoping; invariant over calls and ranks |
| C63-C65 | `Model_periodic`: update_pediodic_info_2d/3d, with float32 as a parameter | processed-prefix invariants of the four loops of a direction; chaining over directions with disjoint labels; instance with Flocq's binary32 |
| C66 | `Model_domain`: Domain.__init__ as the composition of the modelled functions; the views the kernels are called with | the specifications of the parts (C10-C25, C63) composed; `consistent` = the hypotheses of C24-C60 for the built tables, `faithful` = the tables describe the mesh |
| C67 | `Model_haloghost`: update_haloghost_info on the tuple of all ranks' tables; Alltoallv as the slices of the send buffers | rows grouped by node = filter over the concatenated messages; the counts and displacements cut the buffer at the ranks |
| C68 | `Model_parallel`: readmesh, read_mesh_file and Domain.__init__ on all the ranks with the exchanges between them, as one function of the mesh and the answer of METIS | the files of a rank describe its cells (C01-C08), its domain describes its files (C66), the received ghosts are the others' (C67); `represents` states all of it in the numbering of the mesh |
| C69 | `Model_run`: the time loop of the transport scripts (order 1, no diffusion, no periodic sides; constant velocity) on all ranks: update_values, interpolate_facetocell, time_step, allreduce, explicitscheme_convective, update_new_value, on the domains of `Model_parallel` | `Spec_run` writes the upwind scheme on the mesh itself (facets, cell beside, outward area vector); invariant of the loop: every rank holds the global field on its cells, halo and ghosts are refreshed from it (C68, C35), each face of a rank is a facet with the outward area of the mesh, the minimum over ranks is the global minimum; maximum principle and conservation by facet sums |
| C70-C72 | `Model_run2`: update_values, interpolate_celltonode, compute_cell_gradient, compute_face_gradient on the tuple of all ranks' variables (heaps with references) | invariant over histories (`Spec_run3.history`): each rank's stencil is a permutation of the stencil in the whole mesh (`Spec_run2`), and the fit depends only on the stencil as a multiset (C24/C25 uniqueness) |
| C73 | `Model_run2.full_transport`: the time loop with order 2 and diffusion | one turn = one step of the scheme on the whole mesh (`Spec_run2.full_step`), which is a function of the field; induction on turns; facets inside the mesh cancel in the sum |
| C74 | `Model_poisson` (`new_system`, `assemble`, `handed_rhs`): constructor, assembly, reduction and right-hand side on all the ranks, from the domains `setup` builds | each row of the triplets minus the right-hand side is the sum of the fluxes through the facets of the cell (`Spec_poisson.laplacian`): C38-C40 applied to the tables of C68; node values by C24; rows belong to the owner of the cell; the corollaries on the mesh alone |
| C75 | `Model_poisson.solve`, `deliver`: the external solver is a function from triplets and right-hand side to a vector | scatter and `convert_solution` (C41) give each rank its part; C74 turns `A x = b` into the discrete problem and back |
| C76 | `Model_poisson.solution_gradient`: interpolation, then `compute_P_gradient` on each rank | C53 and C70 on the tables of C68; the slope is unique; on closed Dirichlet sides its fluxes are those of the system, hence C74 |
| C77 | `Model_run3`: the objects of the model on all ranks, friction, exchanges, kernels of C43-C46, the loop; `Spec_run4`: the scheme on the mesh | the kernels of C43-C46 on the tables of C68, the interpolation, gradients and limiter of C70-C72, facet by facet; the source of a cell: three parts and the depths of the parts as the solution of a linear system; induction on the number of steps |
| C78 | the same | the scheme does not mention ranks and is deterministic (C77) |
| C79 | the same | the sum over all facets telescopes (C55); walls by C58, lakes by C45, uniform streams by C44 and the closing of the normals; invariants by induction on the steps |
| C80 | `Model_run4`: the loop of test_darcy_2d/3d on all ranks, the solver a function of the turn, triplets and right-hand side; `Spec_run6`: velocity field of a pressure, time step and step of transport on the mesh | C74-C76 for the system and the gradient, C70-C73 for the density, facet by facet with a velocity that varies; induction on the turns; termination by the positive largest step |
| C81 | the same | velocity field, time step and step are unique functions of the pressure and the density on the mesh |
| C82 | the same | facets inside the mesh cancel (the velocity is the same seen from both sides); the divergence of C76; convexity |
| C83 | `Model_run5`: the loops of test_streamer_2d and test_streamer_2d_bis on all ranks; `Spec_run7`: drift, ionisation, time step and step of electrons and ions on the mesh | C47-C49, C61 per rank, C74-C76 for the potential, C71-C73 for the electrons; induction on the turns |
| C84 | the same | potential, field, time step and step are unique functions of the densities on the mesh |
| C85 | the same | facets inside the mesh cancel; divergence of C76; induction on the turns |
| C86 | `Model_var`: sequences of constructions and other statements, `domain.Pbordnode/Pbordface` as one state | the state is that of the last construction; C76 with the boundary values of that construction |
| C87 | `Model_var`: operators of `Variable` on all ranks | per rank on the model of the constructor; C22 for the halos, frame of the detached cell array for the ghosts |
| C88 | `Model_var`: `norml2`; `Spec_var`: weighted norms over cells of the mesh | sums over the rank's cells with the volumes of C68 |
| C89 | `Model_petsc`: linearsystem.py:260-267, np.unique of the rows, counts written at loctoglob, allreduce; `Spec_petsc`: entries of a row, cells with an equation | rows of the triplets = owned attached cells (plus row 0 of the padding in 2D); sorted unique rows against the sorted cells of the rank; sums over ranks |
| C90 | the models of C66, C63-C65 and C69 (`Model_domain`, `Model_periodic`, `Model_run`) run on periodic meshes on one rank; `Spec_per`: meshes with periodic directions, the cell across the domain, the upwind scheme with it | the domain of a periodic mesh is that of the same mesh without periodicity (C68) with the second cells of the periodic faces replaced (`Proofs_per1-3`); facing facets are unique and their normals opposite (`per5`); each stage of a turn computes its part of the scheme (`per6`), induction over turns (`per7`); bounds and balance from the scheme alone (`per8`) |
| C91 | `Model_save`: save_on_cell and save_on_node on all ranks, a file system of results (piece files by rank and number, index files opened for appending), readmesh emptying it; `Spec_save`: files that show a field on a mesh | the grids are the tables of C68, every cell on one rank; the writes of the ranks commute (`Proofs_save`); programs by induction on the calls |
| C92 | `Model_init`: initialisation_gaussian_2d/3d, initialisation_SW, initialisation_streamer(_3d) over the centres of the ranks; `Spec_init`: the fields as functions of the centre | loops over the cells; the centres of C68; with C69 (transport) and C77 (first step: fluxes of water at rest, monotone under the program's CFL condition) |
| C93 | `Model_run6`: the loops of test_sw_2d.py and the transport scripts with `niter`, `miter`, `tot` and the saves, over sw_turn/full_turn and `Model_save`; `Spec_run8`: course of states, turns with a save, contents of the directory | generic loop lemma: invariant "directory holds the list of fields saved so far" by induction on the turns; with C77/C73 turns and C91. Periodic sides: `Model_per2`, the turns of C90; the domain has the tables of the mesh with one label that saving reads (`Proofs_per9`) |
| C94 | `Model_run7`: the loops of test_darcy_2d/3d.py, test_streamer_2d.py and test_streamer_2d_bis.py with `niter`, `miter`, `tot` and the saves, over darcy_turn/streamer_turn and `Model_save`; `Spec_run9`: the turns one after the other, which of them are saved | the generic loop lemma of C93 with tot varying from turn to turn and with turns that fail (`Proofs_run39`); turns of C80/C83; C91 |
| C95 | `Model_gmsh`: what meshio returns, create_cell_nodeid, define_ghost_node (`Model_label`) and the whole set-up (`Model_parallel`); `Spec_gmsh`: tagged facets, sides, directions | precedence of C09 by cases on the direction; the priority list of C15 over the labels a facet can meet; invariance of mesh conditions under sorting the rows; then C68/C16/C90 |

Cannot be expressed here: rounding-error bounds of the compiled kernels, performance, VTK output files' readability,
convergence orders (they depend on mesh sequences and analysis outside the code), OpenMP schedules of the compiled kernels.

## 4. Trusted base

1. Coq 8.16.1's kernel (and its `vm_compute` machine where `vm_compute` is used on concrete examples).
2. The correspondence between `Model_*.v` and the Python text, which is by reading: every definition cites the lines it models.
3. The modelling decisions of section 2.
4. The axioms listed in section 5: only those of Coq's standard library of real numbers
   (`ClassicalDedekindReals.sig_forall_dec`, `ClassicalDedekindReals.sig_not_dec`,
   `FunctionalExtensionality.functional_extensionality_dep`) and `Classical_Prop.classic`.
   The development declares no axiom, parameter, section-less variable, functor or module type; there is no `Admitted`/`admit`;
   no kernel check is switched off.

## 5. What `Print Assumptions` lists

* **none (closed under the global context)** (22 theorems): C09_node_label_precedence, C09_precedence_meaning, C09_list_meshes_refuted, C10_node_cell_tables, C11_faces_are_the_facets, C12_face_cells, C13_neighbours_by_face, C14_opposite_nodes, C16_one_category_iff_label_known_partial, C16_boundary_list_exact, C16_every_face_categorised_refuted, C39_inner_faces, C60_manning_refuted, C60_no_parameters_refuted, C60_shared_refuted, C67_halo_ghosts, C68_connected_mesh, C68_square_stars, C77_channel_room, C80_default_conditions, C95_labels, C95_front_and_back_refuted
* **`ClassicalDedekindReals.sig_forall_dec`** (17 theorems): C08_sequential_file_roundtrip, C24_ghost_padding, C35_halo_ghosts, C36_dictionary_validated, C36_no_dictionary, C36_slip_refuted, C36_no_values_refuted, C36_unknown_type_refuted, C51_face_lists, C60_coriolis_refuted, C60_terms_refuted, C60_settings_partial, C68_square_alone, C68_square_split, C77_channel_splits, C90_torus_split, C90_torus_bc
* **`ClassicalDedekindReals.sig_forall_dec`, `FunctionalExtensionality.functional_extensionality_dep`** (104 theorems): C01_each_cell_owned_once, C02_GtoL_is_a_permutation, C03_local_meshes_faithful, C04_send_lists_match_receive_lists, C05_halo_complete_and_exact, C06_neighbours_symmetric, C07_partition_writing_succeeds, C07_contract_is_needed_refuted, C08_rank_files_roundtrip, C24_vertex_interpolation, C24_degenerate, C24_least_squares, C25_periodic3d_refuted, C25_cell_gradient, C25_least_squares, C26_face_gradient, C26_diamond, C27_limiter, C28_facetocell, C29_convection_conservative, C29_periodic_pairs, C29_cut_faces, C30_diffusion_conservative, C31_upwind, C31_monotone, C32_uniform_state, C34_maximum_principle, C35_reassigned_cell_refuted, C35_ghost_values, C35_no_dictionary, C35_haloghost_nonslip_refuted, C35_slip_refuted, C35_cut_boundary, C35_cut_boundary_aligned, C35_cut_corner_refuted, C36_order_refuted, C37_order_refuted, C37_sides_independent, C38_buffer_size, C39_operator, C39_solution, C39_affine_exact, C40_local_global, C41_solution_scatter, C42_halo_exchange_delivers_owner_values, C43_diffusion_refuted, C43_coriolis_refuted, C43_update, C45_flat_bottom_refuted, C49_local_and_global, C49_rank0_right_hand_side, C50_default_refuted, C50_solvers_partial, C50_mumps_rhs_refuted, C50_missing_side_refuted, C52_boundary_data, C53_corner_refuted, C53_solution_gradient, C54_centers_refuted, C54_centers_unchanged, C58_wall_ghosts, C63_partner_cells, C63_periodic_neighbours, C63_offset_domain_refuted, C63_length_refuted, C64_node_cells, C64_upper_nodes_refuted, C65_shift_x, C65_flux_partners, C65_shift_yz_refuted, C66_square, C66_tetrahedra, C66_triangle_of_two, C67_two_halves, C67_two_halves_received, C68_square, C69_square_conditions, C69_square_outward, C69_square_step, C70_square, C71_bounds, C72_one_slope, C72_square_slope, C73_first_order, C74_laplacian_unique, C74_constant, C76_one_slope, C76_constant, C76_square_closed, C77_channel_mesh, C77_channel_spanned, C77_channel, C77_square, C79_walled_square, C82_balance, C82_incompressible, C82_bounds, C83_saving, C85_gauss, C89_square, C90_torus_next, C92_depth_not_limited, C94_turns, C95_valid
* **`ClassicalDedekindReals.sig_forall_dec`, `ClassicalDedekindReals.sig_not_dec`, `FunctionalExtensionality.functional_extensionality_dep`** (100 theorems): C15_face_labels, C17_triangle_geometry, C18_tetrahedron_geometry, C19_face_normals, C20_closed_cells, C20_closed_cells_nf, C21_ghost_centres, C21_sequential, C22_partition_faces, C22_halo_stencils, C22_no_halo_face_refuted, C23_oriented_face_nodes, C33_time_step, C34_cfl_time_step, C46_example, C46_time_step, C47_speed_increasing_refuted, C47_cell_antiparallel_refuted, C47_drift_velocity, C48_source_same, C48_initially_neutral, C66_domain_construction, C68_parallel_setup, C68_twin_faces, C68_whole_stencil, C68_whole_boundary, C68_square_runs, C69_transport, C69_same_result, C69_bounds, C69_conservation, C69_square_runs, C70_any_field, C70_interpolation, C70_same_result, C71_cell_gradient, C72_face_gradient, C73_transport, C73_same_result, C73_constant, C73_conservation, C73_square_runs, C74_operator, C74_same_system, C74_conservation, C74_affine, C74_neumann, C74_square, C75_solution, C75_serial, C75_same_result, C75_square, C76_gradient, C76_divergence, C76_square, C77_any_state, C77_held_unique, C77_time_step, C80_darcy, C80_terminates, C81_square, C81_same_result, C82_time_step_refuted, C82_constant, C86_last_construction, C86_system_last, C86_later_variable_refuted, C87_square, C87_arithmetic, C87_division, C87_ghosts, C88_ranks_refuted, C88_norm, C89_too_small_refuted, C89_preallocation, C89_shifted, C90_setup, C90_transport, C90_bounds, C90_constant, C90_balance, C90_conservation, C91_periodic, C91_save, C91_order, C91_program, C91_checked, C91_same_number_refuted, C91_square, C92_gaussian, C92_shallow, C92_streamer, C93_periodic, C93_periodic_frames, C93_transport, C94_square, C94_darcy, C95_domains, C95_periodic, C95_channel
* **`ClassicalDedekindReals.sig_forall_dec`, `ClassicalDedekindReals.sig_not_dec`, `Classical_Prop.classic`, `FunctionalExtensionality.functional_extensionality_dep`** (73 theorems): C43_friction, C44_consistency_example, C44_conservation, C44_consistency, C44_critical_refuted, C44_balance, C44_periodic_refuted, C45_example, C45_order2_refuted, C45_lake_flux, C45_still_water, C45_lake_source, C45_lake_step, C48_diffusion_conservative, C48_charge_balance, C55_antisymmetric, C55_cut_faces, C56_rotation, C56_datum, C57_example, C57_supercritical, C58_example, C58_wall, C58_closed_basin, C59_uniform_concentration, C60_missing_term_refuted, C61_zero_field_refuted, C61_time_step, C62_terms, C63_single_tenth, C65_example, C77_channel_dam, C77_shallow_water, C77_runs, C77_step, C77_first_step, C77_terms, C77_deterministic, C78_same_result, C79_channel_lake, C79_square_stream, C79_second_order_walls_refuted, C79_second_order_lake_refuted, C79_balance, C79_closed_basin, C79_lake, C79_uniform_flow, C83_saving_refuted, C83_order1_refuted, C83_streamer, C83_first_turn, C84_square, C84_same_result, C85_square, C85_balance, C85_rest, C90_torus_mesh, C90_torus, C92_density, C92_transport, C92_still_water, C92_dam_break, C92_second_order_refuted, C92_channel, C93_torus, C93_lake, C93_channel_lake, C93_course, C93_saves, C93_few_turns_refuted, C94_streamer_turns, C94_streamer, C95_torus

## 6. What is and is not modelled

Modelled (line ranges are cited at each definition):
`manapy/ddm/meshpartitioning.py` (everything after meshio returned the arrays, METIS's result an input),
`manapy/ddm/numba_ddm.py` (all except the parts listed below), `manapy/ddm/pyccel_ddm.py` (all except `compute_K`),
`manapy/ddm/domain.py` 374-596 (tables and lists built by the constructor) and 608-718 (saving),
`manapy/comms/communication.py` (`define_halosend`, `create_mpi_graph`, `all_to_all`, `prepare_comm`),
`manapy/ast/pyccel_functions.py` (all functions), `manapy/ast/core.py` (constructors, ghost values, halo update, interpolation,
gradients), `manapy/ast/linearsystem.py` (constructor, right-hand sides, gradient, scatter, solve with the numerical solver an arbitrary function),
`manapy/fvm/pyccel_fvm.py` (all), `manapy/tools/pyccel_tools.py` (`initialisation_gaussian_2d/3d`, `time_step`, `update_new_value`),
`manapy/models/SWModel` (all), `manapy/models/StreamerModel` (all except `destroy`; `initiate_LS` for mumps and petsc).

Not modelled: meshio and the reading of the mesh file; METIS; MPI's implementation; scipy/MUMPS/PETSc; the text of meshio's VTK files (the grid
handed to meshio is modelled); `cells._periodicfid` (modelled, nothing reads it); `numba_functions.py`, `numba_fvm.py`,
`numba_tools.py` (older duplicates that the package does not import); pyccel/numba compilation; the property getters.

## 7. Findings (statements refuted of the code, each by a `_refuted` theorem)

| theorem | finding |
|---|---|
| C07_contract_is_needed | without METIS's contract on node owners the partition writer raises KeyError |
| C09_list_meshes | the branch of define_ghost_node for facets given as a list labels nodes wrongly |
| C16_every_face_categorised | a boundary face whose nodes have different labels may get label 100 and then be in no list |
| C22_no_halo_face | a rank without a face shared with a halo cell: IndexError |
| C25_periodic3d | in 3D the periodic neighbours are displaced by the wrong amounts in the cell gradient |
| C35_slip, C36_slip | slip ghosts use u times the reflected component; Boundary raises AttributeError |
| C35_haloghost_nonslip | halo ghosts of nonslip sides are wrong |
| C35_cut_corner | a dirichlet face of another rank, seen from a shared node that carries another side's label (a corner), gets the value of that other side or 0 |
| C35_reassigned_cell | assigning var.cell detaches the boundary objects: ghosts become stale |
| C36_no_values, C36_unknown_type, C36_order, C37_order | missing values: AttributeError; unknown types accepted; results depend on the order of the dictionary |
| C43_diffusion, C43_coriolis | shallow water subtracts the diffusive flux; the Coriolis term does work |
| C44_critical, C44_periodic | nan at an exactly critical face; periodic faces are never visited |
| C45_order2, C45_flat_bottom | second order moves a lake at rest; flat bottom source does not vanish in moving water |
| C47_speed_increasing, C47_cell_antiparallel | the drift law jumps down at E/N = 1e-16; a cell can have zero field and non-zero velocity |
| C50_default, C50_mumps_rhs, C50_missing_side | default solver: AttributeError; mumps with a right-hand side on ranks > 0: TypeError; sides must all be named |
| C53_corner | at a Dirichlet/Neumann corner the prescribed node value is replaced by 1 |
| C54_centers | the 3D periodic assembly moves cell centres (write through a view) |
| C60_manning, C60_coriolis, C60_no_parameters, C60_terms, C60_shared, C60_missing_term | constructor and settings of the shallow-water model |
| C61_zero_field | a cell with zero mean field does not restrict the streamer time step although electrons move |
| C63_offset_domain, C63_length | periodic domains that do not start at 0, or whose length in y or z is not a single precision number (0.1), end in a KeyError |
| C64_upper_nodes | in 2D the upper periodic nodes get at most one periodic cell (the inner loop is missing) |
| C79_second_order_walls, C79_second_order_lake | at second order (the order of test_sw_2d) only the inner side of a wall is reconstructed: a closed basin loses water, a lake at rest between walls moves |
| C82_time_step | the Darcy scripts choose the time step from the mean of the face velocities of a cell: they may cancel, the step is then 1000000 and the density leaves all bounds. (Also, in test_darcy_2d compute_face_gradient is commented out: the diffusion is zero although its coefficients enter the time step; modelled by `spread`.) |
| C83_order1 | StreamerModel of order 1 (its default) computes the drift before ghosts and halos of the electrons are computed: in the first turn everything outside the cells of a rank counts as empty (C83_first_turn), later, when the last turn was not saved, as one turn old; the result depends on the number of ranks. |
| C83_saving | test_streamer_2d_bis saves every tot-th turn, tot = int(tfinal/dt/50): ZeroDivisionError in every turn but the first whose time step exceeds tfinal/50. |
| C86_later_variable | Variable and LinearSystem both bind domain.Pbordnode and domain.Pbordface: constructing a Variable (also by + - * /) after a LinearSystem makes compute_Sol_gradient use 0 for the Dirichlet values, constructing a second system those of the second. |
| C87_ghosts | the result of + - * / has its cell array detached from its boundary objects: ghosts are 0 after update_values. |
| C88_ranks | norml2 is not reduced over the ranks. |
| C89_too_small | In 2D on several ranks the padding triplets (0, 0, 0.) shift the announced numbers of entries by one row on every rank that does not own cell 0; a row may have more columns than announced. |
| C91_same_number | on several ranks the index file visu{miter}.pvtu is opened for appending: saving twice under one number (e.g. the default 0) leaves two XML documents in it. |
| C92_second_order | the limiter of the shallow-water program is computed from the tracer only; with a constant tracer the depth's slopes are unlimited: on the unit square the initial dam break (depths 2 and 5) has depth 2 - 15/52 at a side. |
| C95_front_and_back | with periodic=[.,0,1] (front/back periodic, upper/bottom not) the label 3 or 4 comes before 55 and 66 in create_info_3dfaces: every front or back facet touching upper or bottom is labelled as a part of that side and left out of the periodic pairing. |
| C93_few_turns | test_sw_2d computes tot = int(tfinal/dt/50) without the + 1 of the other scripts: with fewer than 50 first time steps in tfinal and more than one turn, `niter%tot` is a division by zero. |
| C65_shift_yz | the periodic shift in y and z has the wrong sign: images are 2L away |
## 8. Testing the theorems against wrong programs

`seeded/LOG.jsonl`: one line per edited model (definition, edit, claim broken, lemmas and theorems that failed, theorems
tightened).  Each edit was made in a scratch copy and the whole development rebuilt.
