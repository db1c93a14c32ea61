{
 "claims": [
  {
   "property": "C01",
   "status": "proved",
   "theorems": [
    "C01_each_cell_owned_once"
   ],
   "note": ""
  },
  {
   "property": "C02",
   "status": "proved",
   "theorems": [
    "C02_GtoL_is_a_permutation"
   ],
   "note": ""
  },
  {
   "property": "C03",
   "status": "proved",
   "theorems": [
    "C03_local_meshes_faithful"
   ],
   "note": ""
  },
  {
   "property": "C04",
   "status": "proved",
   "theorems": [
    "C04_send_lists_match_receive_lists"
   ],
   "note": ""
  },
  {
   "property": "C05",
   "status": "proved",
   "theorems": [
    "C05_halo_complete_and_exact"
   ],
   "note": ""
  },
  {
   "property": "C06",
   "status": "proved",
   "theorems": [
    "C06_neighbours_symmetric"
   ],
   "note": ""
  },
  {
   "property": "C07",
   "status": "proved",
   "theorems": [
    "C07_partition_writing_succeeds",
    "C07_contract_is_needed_refuted"
   ],
   "note": "Holds under METIS's contract on node owners; the _refuted theorem shows a KeyError without it."
  },
  {
   "property": "C08",
   "status": "proved",
   "theorems": [
    "C08_rank_files_roundtrip",
    "C08_sequential_file_roundtrip"
   ],
   "note": ""
  },
  {
   "property": "C09",
   "status": "proved",
   "theorems": [
    "C09_node_label_precedence",
    "C09_precedence_meaning",
    "C09_list_meshes_refuted"
   ],
   "note": "Proved for the branch of define_ghost_node taken with an array of facets; the other branch (list) is refuted."
  },
  {
   "property": "C10",
   "status": "proved",
   "theorems": [
    "C10_node_cell_tables"
   ],
   "note": ""
  },
  {
   "property": "C11",
   "status": "proved",
   "theorems": [
    "C11_faces_are_the_facets"
   ],
   "note": ""
  },
  {
   "property": "C12",
   "status": "proved",
   "theorems": [
    "C12_face_cells"
   ],
   "note": ""
  },
  {
   "property": "C13",
   "status": "proved",
   "theorems": [
    "C13_neighbours_by_face"
   ],
   "note": ""
  },
  {
   "property": "C14",
   "status": "proved",
   "theorems": [
    "C14_opposite_nodes"
   ],
   "note": ""
  },
  {
   "property": "C15",
   "status": "proved",
   "theorems": [
    "C15_face_labels"
   ],
   "note": ""
  },
  {
   "property": "C16",
   "status": "partial",
   "theorems": [
    "C16_one_category_iff_label_known_partial",
    "C16_boundary_list_exact",
    "C16_every_face_categorised_refuted"
   ],
   "note": "Proved: at most one category, and exactly one for every face whose label is not 100. The full property is false: C16_..._refuted exhibits a boundary face (node labels 1 and 2) labelled 100 that is in no category."
  },
  {
   "property": "C17",
   "status": "proved",
   "theorems": [
    "C17_triangle_geometry"
   ],
   "note": ""
  },
  {
   "property": "C18",
   "status": "proved",
   "theorems": [
    "C18_tetrahedron_geometry"
   ],
   "note": ""
  },
  {
   "property": "C19",
   "status": "proved",
   "theorems": [
    "C19_face_normals"
   ],
   "note": ""
  },
  {
   "property": "C20",
   "status": "proved",
   "theorems": [
    "C20_closed_cells",
    "C20_closed_cells_nf"
   ],
   "note": ""
  },
  {
   "property": "C21",
   "status": "proved",
   "theorems": [
    "C21_ghost_centres",
    "C21_sequential"
   ],
   "note": ""
  },
  {
   "property": "C22",
   "status": "proved",
   "theorems": [
    "C22_partition_faces",
    "C22_halo_stencils",
    "C22_no_halo_face_refuted"
   ],
   "note": "Proved whenever the rank has at least one face shared with a halo cell; the _refuted theorem shows IndexError on a rank without any."
  },
  {
   "property": "C23",
   "status": "proved",
   "theorems": [
    "C23_oriented_face_nodes"
   ],
   "note": ""
  },
  {
   "property": "C24",
   "status": "proved",
   "theorems": [
    "C24_vertex_interpolation",
    "C24_degenerate",
    "C24_ghost_padding",
    "C24_least_squares"
   ],
   "note": ""
  },
  {
   "property": "C25",
   "status": "proved",
   "theorems": [
    "C25_periodic3d_refuted",
    "C25_cell_gradient",
    "C25_least_squares"
   ],
   "note": "Proved without periodic boundaries in 3D; C25_periodic3d_refuted shows that in 3D the periodic neighbours are displaced by the wrong amounts."
  },
  {
   "property": "C26",
   "status": "proved",
   "theorems": [
    "C26_face_gradient",
    "C26_diamond"
   ],
   "note": ""
  },
  {
   "property": "C27",
   "status": "proved",
   "theorems": [
    "C27_limiter"
   ],
   "note": ""
  },
  {
   "property": "C28",
   "status": "proved",
   "theorems": [
    "C28_facetocell"
   ],
   "note": ""
  },
  {
   "property": "C29",
   "status": "proved",
   "theorems": [
    "C29_convection_conservative",
    "C29_periodic_pairs",
    "C29_cut_faces"
   ],
   "note": ""
  },
  {
   "property": "C30",
   "status": "proved",
   "theorems": [
    "C30_diffusion_conservative"
   ],
   "note": ""
  },
  {
   "property": "C31",
   "status": "proved",
   "theorems": [
    "C31_upwind",
    "C31_monotone"
   ],
   "note": ""
  },
  {
   "property": "C32",
   "status": "proved",
   "theorems": [
    "C32_uniform_state"
   ],
   "note": ""
  },
  {
   "property": "C33",
   "status": "proved",
   "theorems": [
    "C33_time_step"
   ],
   "note": ""
  },
  {
   "property": "C34",
   "status": "proved",
   "theorems": [
    "C34_maximum_principle",
    "C34_cfl_time_step"
   ],
   "note": ""
  },
  {
   "property": "C35",
   "status": "proved",
   "theorems": [
    "C35_reassigned_cell_refuted",
    "C35_ghost_values",
    "C35_no_dictionary",
    "C35_halo_ghosts",
    "C35_haloghost_nonslip_refuted",
    "C35_slip_refuted",
    "C35_cut_boundary",
    "C35_cut_boundary_aligned",
    "C35_cut_corner_refuted"
   ],
   "note": "Proved for neumann, dirichlet, periodic and nonslip sides after any history of in-place changes, sequentially and in parallel (nonslip in parallel: as long as the halo-ghost numbers stay below the number of halo cells, otherwise the kernel reads outside the halo array). Refuted: slip (u times the reflected component, and Boundary raises AttributeError), halo ghosts of nonslip sides, ghosts after var.cell has been re-assigned."
  },
  {
   "property": "C36",
   "status": "proved",
   "theorems": [
    "C36_order_refuted",
    "C36_dictionary_validated",
    "C36_no_dictionary",
    "C36_slip_refuted",
    "C36_no_values_refuted",
    "C36_unknown_type_refuted"
   ],
   "note": "Proved for dictionaries of the types neumann, dirichlet, periodic, nonslip with dirichlet entries before neumann ones; _refuted theorems show AttributeError for slip and for a missing values dictionary, silent acceptance of unknown types, IndexError for other orders."
  },
  {
   "property": "C37",
   "status": "proved",
   "theorems": [
    "C37_order_refuted",
    "C37_sides_independent"
   ],
   "note": "Holds for dictionaries with dirichlet entries before neumann ones; C37_order_refuted shows that it fails for other orders."
  },
  {
   "property": "C38",
   "status": "proved",
   "theorems": [
    "C38_buffer_size"
   ],
   "note": ""
  },
  {
   "property": "C39",
   "status": "proved",
   "theorems": [
    "C39_operator",
    "C39_solution",
    "C39_affine_exact",
    "C39_inner_faces"
   ],
   "note": "Hypotheses exclude 3D periodic neighbours (the operator then uses moved cell centres, see C54_centers_refuted)."
  },
  {
   "property": "C40",
   "status": "proved",
   "theorems": [
    "C40_local_global"
   ],
   "note": ""
  },
  {
   "property": "C41",
   "status": "proved",
   "theorems": [
    "C41_solution_scatter"
   ],
   "note": ""
  },
  {
   "property": "C42",
   "status": "proved",
   "theorems": [
    "C42_halo_exchange_delivers_owner_values"
   ],
   "note": ""
  },
  {
   "property": "C43",
   "status": "proved",
   "theorems": [
    "C43_diffusion_refuted",
    "C43_coriolis_refuted",
    "C43_update",
    "C43_friction"
   ],
   "note": "update_SW is proved to be the formula in the code; two parts of that formula are physically wrong and refuted: it subtracts the diffusive flux (C43_diffusion_refuted) and the Coriolis term does work (C43_coriolis_refuted)."
  },
  {
   "property": "C44",
   "status": "proved",
   "theorems": [
    "C44_consistency_example",
    "C44_conservation",
    "C44_consistency",
    "C44_critical_refuted",
    "C44_balance",
    "C44_periodic_refuted"
   ],
   "note": "At an exactly critical face the flux is not a number (C44_critical_refuted); periodic faces are never visited (C44_periodic_refuted), so with periodic sides nothing crosses them."
  },
  {
   "property": "C45",
   "status": "proved",
   "theorems": [
    "C45_example",
    "C45_order2_refuted",
    "C45_lake_flux",
    "C45_still_water",
    "C45_lake_source",
    "C45_lake_step",
    "C45_flat_bottom_refuted"
   ],
   "note": "First order. C45_order2_refuted: at second order water moves; C45_flat_bottom_refuted: over a flat bottom the source term does not vanish in moving water."
  },
  {
   "property": "C46",
   "status": "proved",
   "theorems": [
    "C46_example",
    "C46_time_step"
   ],
   "note": ""
  },
  {
   "property": "C47",
   "status": "proved",
   "theorems": [
    "C47_speed_increasing_refuted",
    "C47_cell_antiparallel_refuted",
    "C47_drift_velocity"
   ],
   "note": "Law of the face velocity proved; monotonicity of the speed and the cell velocity being anti-parallel to the cell field are refuted."
  },
  {
   "property": "C48",
   "status": "proved",
   "theorems": [
    "C48_diffusion_conservative",
    "C48_source_same",
    "C48_charge_balance",
    "C48_initially_neutral"
   ],
   "note": ""
  },
  {
   "property": "C49",
   "status": "proved",
   "theorems": [
    "C49_local_and_global",
    "C49_rank0_right_hand_side"
   ],
   "note": ""
  },
  {
   "property": "C50",
   "status": "partial",
   "theorems": [
    "C50_default_refuted",
    "C50_solvers_partial",
    "C50_mumps_rhs_refuted",
    "C50_missing_side_refuted"
   ],
   "note": "Proved: the behaviour with a solver named. The default is refuted: without a solver argument the constructor always fails (AttributeError: property without setter). Also refuted: mumps with a user right-hand side on ranks other than 0 (TypeError), and dictionaries that do not mention a side."
  },
  {
   "property": "C51",
   "status": "proved",
   "theorems": [
    "C51_face_lists"
   ],
   "note": ""
  },
  {
   "property": "C52",
   "status": "proved",
   "theorems": [
    "C52_boundary_data"
   ],
   "note": ""
  },
  {
   "property": "C53",
   "status": "proved",
   "theorems": [
    "C53_corner_refuted",
    "C53_solution_gradient"
   ],
   "note": "C53_corner_refuted: at a corner of a Dirichlet side with a Neumann side the prescribed node value is replaced by 1, so the gradient of a constant solution is not 0."
  },
  {
   "property": "C54",
   "status": "proved",
   "theorems": [
    "C54_centers_refuted",
    "C54_centers_unchanged"
   ],
   "note": "Proved without periodic neighbours; C54_centers_refuted: with periodic boundaries in 3D the assembly moves cell centres (write through a view)."
  },
  {
   "property": "C55",
   "status": "proved",
   "theorems": [
    "C55_antisymmetric",
    "C55_cut_faces"
   ],
   "note": ""
  },
  {
   "property": "C56",
   "status": "proved",
   "theorems": [
    "C56_rotation",
    "C56_datum"
   ],
   "note": ""
  },
  {
   "property": "C57",
   "status": "proved",
   "theorems": [
    "C57_example",
    "C57_supercritical"
   ],
   "note": ""
  },
  {
   "property": "C58",
   "status": "proved",
   "theorems": [
    "C58_example",
    "C58_wall",
    "C58_wall_ghosts",
    "C58_closed_basin"
   ],
   "note": ""
  },
  {
   "property": "C59",
   "status": "proved",
   "theorems": [
    "C59_uniform_concentration"
   ],
   "note": ""
  },
  {
   "property": "C60",
   "status": "partial",
   "theorems": [
    "C60_coriolis_refuted",
    "C60_manning_refuted",
    "C60_no_parameters_refuted",
    "C60_terms_refuted",
    "C60_missing_term_refuted",
    "C60_shared_refuted",
    "C60_settings_partial"
   ],
   "note": "Proved: success, terms, Dx, Dy, Manning. Refuted: the Coriolis coefficient is read from the entry of Manning (KeyError when absent), parameters=None raises TypeError, the caller's list of terms is extended, variables are shared between models."
  },
  {
   "property": "C61",
   "status": "proved",
   "theorems": [
    "C61_zero_field_refuted",
    "C61_time_step"
   ],
   "note": "Cells with a mean field of exactly zero are ignored (C61_zero_field_refuted)."
  },
  {
   "property": "C62",
   "status": "proved",
   "theorems": [
    "C62_terms"
   ],
   "note": ""
  },
  {
   "property": "C63",
   "status": "proved",
   "theorems": [
    "C63_single_tenth",
    "C63_partner_cells",
    "C63_periodic_neighbours",
    "C63_offset_domain_refuted",
    "C63_length_refuted"
   ],
   "note": "Hypotheses (paired faces and nodes, domain [0,L], L exact in single precision) are met by the 12-triangle rectangle of Examples_periodic with IEEE binary32; C63_single_tenth shows that 0.1 is not exact."
  },
  {
   "property": "C64",
   "status": "proved",
   "theorems": [
    "C64_node_cells",
    "C64_upper_nodes_refuted"
   ],
   "note": "Full in 3D and for x; in 2D/y proved for the bottom nodes, refuted for the upper ones."
  },
  {
   "property": "C65",
   "status": "proved",
   "theorems": [
    "C65_example",
    "C65_shift_x",
    "C65_flux_partners",
    "C65_shift_yz_refuted"
   ],
   "note": "Proved for x; the y and z shifts have the wrong sign (refuted in general)."
  },
  {
   "property": "C66",
   "status": "proved",
   "theorems": [
    "C66_square",
    "C66_tetrahedra",
    "C66_triangle_of_two",
    "C66_domain_construction"
   ],
   "note": ""
  },
  {
   "property": "C67",
   "status": "proved",
   "theorems": [
    "C67_halo_ghosts",
    "C67_two_halves",
    "C67_two_halves_received"
   ],
   "note": ""
  },
  {
   "property": "C68",
   "status": "proved",
   "theorems": [
    "C68_parallel_setup",
    "C68_twin_faces",
    "C68_whole_stencil",
    "C68_whole_boundary",
    "C68_connected_mesh",
    "C68_square",
    "C68_square_alone",
    "C68_square_split",
    "C68_square_stars",
    "C68_square_runs"
   ],
   "note": ""
  },
  {
   "property": "C69",
   "status": "proved",
   "theorems": [
    "C69_transport",
    "C69_same_result",
    "C69_bounds",
    "C69_conservation",
    "C69_square_conditions",
    "C69_square_outward",
    "C69_square_step",
    "C69_square_runs"
   ],
   "note": ""
  },
  {
   "property": "C70",
   "status": "proved",
   "theorems": [
    "C70_any_field",
    "C70_interpolation",
    "C70_same_result",
    "C70_square"
   ],
   "note": ""
  },
  {
   "property": "C71",
   "status": "proved",
   "theorems": [
    "C71_cell_gradient",
    "C71_bounds"
   ],
   "note": ""
  },
  {
   "property": "C72",
   "status": "proved",
   "theorems": [
    "C72_face_gradient",
    "C72_one_slope",
    "C72_square_slope"
   ],
   "note": ""
  },
  {
   "property": "C73",
   "status": "proved",
   "theorems": [
    "C73_transport",
    "C73_same_result",
    "C73_constant",
    "C73_conservation",
    "C73_first_order",
    "C73_square_runs"
   ],
   "note": ""
  },
  {
   "property": "C74",
   "status": "proved",
   "theorems": [
    "C74_operator",
    "C74_laplacian_unique",
    "C74_same_system",
    "C74_conservation",
    "C74_constant",
    "C74_affine",
    "C74_neumann",
    "C74_square"
   ],
   "note": ""
  },
  {
   "property": "C75",
   "status": "proved",
   "theorems": [
    "C75_solution",
    "C75_serial",
    "C75_same_result",
    "C75_square"
   ],
   "note": ""
  },
  {
   "property": "C76",
   "status": "proved",
   "theorems": [
    "C76_gradient",
    "C76_one_slope",
    "C76_divergence",
    "C76_constant",
    "C76_square_closed",
    "C76_square"
   ],
   "note": ""
  },
  {
   "property": "C77",
   "status": "proved",
   "theorems": [
    "C77_channel_mesh",
    "C77_channel_spanned",
    "C77_channel_splits",
    "C77_channel_room",
    "C77_channel",
    "C77_square",
    "C77_any_state",
    "C77_channel_dam",
    "C77_shallow_water",
    "C77_runs",
    "C77_held_unique",
    "C77_step",
    "C77_time_step",
    "C77_first_step",
    "C77_terms",
    "C77_deterministic"
   ],
   "note": "sound (C77_shallow_water) and complete (C77_runs) with respect to the scheme of Spec_run4; C77_channel, C77_square: regular meshes on one and two ranks; C77_channel_dam: a dam break that runs"
  },
  {
   "property": "C78",
   "status": "proved",
   "theorems": [
    "C78_same_result"
   ],
   "note": "instance: C77_square (one and two ranks), C77_channel (with walls)"
  },
  {
   "property": "C79",
   "status": "proved",
   "theorems": [
    "C79_channel_lake",
    "C79_square_stream",
    "C79_walled_square",
    "C79_second_order_walls_refuted",
    "C79_second_order_lake_refuted",
    "C79_balance",
    "C79_closed_basin",
    "C79_lake",
    "C79_uniform_flow"
   ],
   "note": "closed basins and lakes at first order; the statements for second order are refuted (C79_second_order_*_refuted); instances: C79_channel_lake, C77_channel_dam, C79_square_stream"
  },
  {
   "property": "C80",
   "status": "proved",
   "theorems": [
    "C80_darcy",
    "C80_default_conditions",
    "C80_terminates"
   ],
   "note": "sound for whatever the solver returns (C80_darcy); terminates when it solves (C80_terminates)"
  },
  {
   "property": "C81",
   "status": "proved",
   "theorems": [
    "C81_square",
    "C81_same_result"
   ],
   "note": "instance: C81_square, a mesh and pressure conditions with exactly one discrete pressure"
  },
  {
   "property": "C82",
   "status": "proved",
   "theorems": [
    "C82_time_step_refuted",
    "C82_balance",
    "C82_incompressible",
    "C82_constant",
    "C82_bounds"
   ],
   "note": "the bounds hold for steps limited by what enters a cell; the step the program takes does not satisfy this (C82_time_step_refuted)"
  },
  {
   "property": "C83",
   "status": "proved",
   "theorems": [
    "C83_saving_refuted",
    "C83_order1_refuted",
    "C83_streamer",
    "C83_first_turn",
    "C83_saving"
   ],
   "note": "C83_first_turn characterises the first turn of the class at first order, which is not the scheme (C83_order1_refuted); C83_saving: when the class program divides by zero"
  },
  {
   "property": "C84",
   "status": "proved",
   "theorems": [
    "C84_square",
    "C84_same_result"
   ],
   "note": "instance: C84_square (one rank with mumps, two ranks with petsc)"
  },
  {
   "property": "C85",
   "status": "proved",
   "theorems": [
    "C85_square",
    "C85_balance",
    "C85_gauss",
    "C85_rest"
   ],
   "note": "instance: C85_square"
  },
  {
   "property": "C86",
   "status": "proved",
   "theorems": [
    "C86_last_construction",
    "C86_system_last",
    "C86_later_variable_refuted"
   ],
   "note": "C76, C80 and C83 hold for systems that are the last construction on their domain, as in all the scripts of the repository; otherwise C86_last_construction says what is computed"
  },
  {
   "property": "C87",
   "status": "proved",
   "theorems": [
    "C87_square",
    "C87_arithmetic",
    "C87_division",
    "C87_ghosts"
   ],
   "note": "instance: C87_square. C87_ghosts: results of arithmetic have ghosts 0 at every boundary face"
  },
  {
   "property": "C88",
   "status": "proved",
   "theorems": [
    "C88_ranks_refuted",
    "C88_norm"
   ],
   "note": "C88_ranks_refuted: one rank returns 1, two ranks return 0 and 2 for the same fields"
  },
  {
   "property": "C89",
   "status": "proved",
   "theorems": [
    "C89_square",
    "C89_too_small_refuted",
    "C89_preallocation",
    "C89_shifted"
   ],
   "note": "instances: C89_square (cells are attached), C70_square (regular). In 2D on several ranks only C89_shifted holds: the announced counts are shifted, efficiency only since option 19 is switched off by the code"
  },
  {
   "property": "C90",
   "status": "proved",
   "theorems": [
    "C90_torus_mesh",
    "C90_torus_split",
    "C90_torus_bc",
    "C90_torus",
    "C90_torus_next",
    "C90_setup",
    "C90_transport",
    "C90_bounds",
    "C90_constant",
    "C90_balance",
    "C90_conservation"
   ],
   "note": "instance: C90_torus_mesh, C90_torus_split, C90_torus_bc, C90_torus (four triangles, periodic in both directions, binary32)"
  },
  {
   "property": "C91",
   "status": "proved",
   "theorems": [
    "C91_periodic",
    "C91_save",
    "C91_order",
    "C91_program",
    "C91_checked",
    "C91_same_number_refuted",
    "C91_square"
   ],
   "note": "instance: C91_square (two triangles on two ranks, written in the order 1, 0). C91_periodic: the same on meshes with periodic sides, one process"
  },
  {
   "property": "C92",
   "status": "proved",
   "theorems": [
    "C92_gaussian",
    "C92_density",
    "C92_shallow",
    "C92_streamer",
    "C92_transport",
    "C92_still_water",
    "C92_dam_break",
    "C92_depth_not_limited",
    "C92_second_order_refuted",
    "C92_channel"
   ],
   "note": "instances: C92_channel (four triangles with walls on one and two ranks, all terms), C68_square; C92_still_water/C92_dam_break are about the first step only"
  },
  {
   "property": "C93",
   "status": "proved",
   "theorems": [
    "C93_torus",
    "C93_lake",
    "C93_channel_lake",
    "C93_periodic",
    "C93_periodic_frames",
    "C93_course",
    "C93_saves",
    "C93_few_turns_refuted",
    "C93_transport"
   ],
   "note": "instances: C93_lake, C93_channel_lake (lake at rest, two ranks), C93_torus (four triangles, periodic in both directions). C93_periodic, C93_periodic_frames: the transport loop with its saves on periodic meshes, one process, first order, saving on the cells"
  },
  {
   "property": "C94",
   "status": "proved",
   "theorems": [
    "C94_square",
    "C94_turns",
    "C94_darcy",
    "C94_streamer_turns",
    "C94_streamer"
   ],
   "note": "instance: C94_square (two ranks, 120 turns, 41 saves). The class program (bis) is covered at second order, as in C83"
  },
  {
   "property": "C95",
   "status": "proved",
   "theorems": [
    "C95_labels",
    "C95_front_and_back_refuted",
    "C95_valid",
    "C95_domains",
    "C95_periodic",
    "C95_channel",
    "C95_torus"
   ],
   "note": "instances: C95_channel (one and two ranks), C95_torus (both directions periodic). meshio's parsing is not modelled; for the list form of newer meshio see C09_list_meshes_refuted. For periodic meshes the set-up (C90) is on one process"
  }
 ]
}