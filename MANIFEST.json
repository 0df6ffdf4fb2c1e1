{
 "claims": [
  {
   "property": "C01",
   "status": "proved",
   "theorems": [
    "subdomain_widths"
   ],
   "note": ""
  },
  {
   "property": "C02",
   "status": "proved",
   "theorems": [
    "axis_subdomains",
    "mesh_axes",
    "mesh_axes_order_irrelevant",
    "parsed_mesh_is_valid_grid"
   ],
   "note": ""
  },
  {
   "property": "C03",
   "status": "proved",
   "theorems": [
    "mesh_creation_succeeds",
    "vertices",
    "pressure_points",
    "velocity_own_axis",
    "velocity_other_axis",
    "velocity_coordinates_increase",
    "velocity_entries_readable",
    "velocity_entries_outside_unreadable",
    "other_axis_interior"
   ],
   "note": ""
  },
  {
   "property": "C04",
   "status": "proved",
   "theorems": [
    "periodic_ghosts",
    "periodic_own_axis_interior"
   ],
   "note": ""
  },
  {
   "property": "C05",
   "status": "proved",
   "theorems": [
    "periodic_check_accepts_valid_tables",
    "periodic_check_rejects_other_tables",
    "periodic_flags_agree"
   ],
   "note": ""
  },
  {
   "property": "C06",
   "status": "proved",
   "theorems": [
    "natural_index_interior",
    "natural_index_injective",
    "natural_index_onto",
    "natural_index_ghost"
   ],
   "note": ""
  },
  {
   "property": "C07",
   "status": "proved",
   "theorems": [
    "natural_index_first_outside",
    "natural_index_corner",
    "natural_index_corner_refuted",
    "natural_index_corner_image_refuted"
   ],
   "note": "The documented behaviour is false of the code for corners whose first outside direction is periodic; the theorems say exactly what the code does."
  },
  {
   "property": "C08",
   "status": "proved",
   "theorems": [
    "packed_index_is_position",
    "packed_index_bijection",
    "packed_index_ghost",
    "packed_index_pressure",
    "default_decomposition_ok",
    "mesh_counts"
   ],
   "note": ""
  },
  {
   "property": "C09",
   "status": "proved",
   "theorems": [
    "body_index_bijection",
    "body_owner",
    "body_index_rejects",
    "body_owner_rejects",
    "default_distribution"
   ],
   "note": "for every distribution of the points over the ranks, including ranks without points"
  },
  {
   "property": "C10",
   "status": "proved",
   "theorems": [
    "stencil_order_lexicographic",
    "stencil_order_trichotomy",
    "stencil_order_transitive"
   ],
   "note": ""
  },
  {
   "property": "C11",
   "status": "proved",
   "theorems": [
    "ghost_list",
    "ghost_on_one_rank",
    "boundary_object"
   ],
   "note": ""
  },
  {
   "property": "C12",
   "status": "proved",
   "theorems": [
    "dirichlet_enforced",
    "neumann_enforced",
    "updates_never_fail"
   ],
   "note": ""
  },
  {
   "property": "C13",
   "status": "proved",
   "theorems": [
    "convective_advects",
    "convective_initial",
    "a0_never_changes"
   ],
   "note": ""
  },
  {
   "property": "C14",
   "status": "proved",
   "theorems": [
    "laplacian_is_extended_stencil",
    "laplacian_small_periodic_refuted"
   ],
   "note": ""
  },
  {
   "property": "C15",
   "status": "proved",
   "theorems": [
    "laplacian_annihilates_affine",
    "laplacian_of_own_square",
    "laplacian_self_adjoint",
    "laplacian_transverse_square_refuted"
   ],
   "note": "the self-adjointness covers the whole assembled matrix; periodic directions need 3 points"
  },
  {
   "property": "C16",
   "status": "proved",
   "theorems": [
    "divergence_is_net_flux",
    "divergence_small_periodic_refuted"
   ],
   "note": ""
  },
  {
   "property": "C17",
   "status": "proved",
   "theorems": [
    "discrete_divergence_theorem"
   ],
   "note": ""
  },
  {
   "property": "C18",
   "status": "proved",
   "theorems": [
    "gradient_is_face_difference",
    "divergence_is_minus_gradient_adjoint",
    "pressure_operator_symmetric_negative"
   ],
   "note": ""
  },
  {
   "property": "C19",
   "status": "proved",
   "theorems": [
    "gradient_null_space_is_constants",
    "constants_in_poisson_null_space"
   ],
   "note": ""
  },
  {
   "property": "C20",
   "status": "proved",
   "theorems": [
    "bnhead_truncated_inverse",
    "bn_scaled_truncated_inverse",
    "bn_mass_truncated_inverse",
    "bn_order_rejected"
   ],
   "note": ""
  },
  {
   "property": "C21",
   "status": "proved",
   "theorems": [
    "projected_velocity_divergence_free"
   ],
   "note": "exact Poisson solve is a hypothesis; a periodic direction needs 2 points"
  },
  {
   "property": "C22",
   "status": "proved",
   "theorems": [
    "pinned_solution_solves_original",
    "original_solution_solves_pinned",
    "pinned_poisson_solves_original",
    "poisson_matrix_symmetric",
    "pinned_poisson_unique",
    "pinned_poisson_definite_refuted"
   ],
   "note": ""
  },
  {
   "property": "C23",
   "status": "proved",
   "theorems": [
    "conv_free_stream",
    "conv_free_stream_points",
    "conv_free_stream_refuted",
    "conv_conservative",
    "conv_conservative_periodic"
   ],
   "note": ""
  },
  {
   "property": "C24",
   "status": "proved",
   "theorems": [
    "conv_in_bounds",
    "conv_no_memory",
    "conv_rank_value",
    "conv_value"
   ],
   "note": ""
  },
  {
   "property": "C25",
   "status": "proved",
   "theorems": [
    "conv_decomposition",
    "conv_decomposition_periodic",
    "conv_decomposition_refuted"
   ],
   "note": ""
  },
  {
   "property": "C26",
   "status": "proved",
   "theorems": [
    "diagonal_operators",
    "flux_velocity_round_trip"
   ],
   "note": ""
  },
  {
   "property": "C27",
   "status": "proved",
   "theorems": [
    "kernel_values",
    "kernel_moments",
    "kernel_even_odd",
    "kernel_names"
   ],
   "note": ""
  },
  {
   "property": "C28",
   "status": "proved",
   "theorems": [
    "window_holds_support",
    "delta_entries",
    "delta_defined"
   ],
   "note": ""
  },
  {
   "property": "C29",
   "status": "proved",
   "theorems": [
    "interpolation_exact",
    "spreading_preserves"
   ],
   "note": "with periodic directions every component must have at least as many points as the window (5 or 7)"
  },
  {
   "property": "C30",
   "status": "proved",
   "theorems": [
    "delta_defined",
    "images_ignored",
    "periodic_images_refuted",
    "wall_read_as_periodic_refuted",
    "rank_without_points_refuted"
   ],
   "note": "the stronger claim is false of the code: see the _refuted theorems"
  },
  {
   "property": "C31",
   "status": "proved",
   "theorems": [
    "point_probe_run",
    "point_probe_inner",
    "interpolant_unique",
    "interpolant_exact",
    "interpolant_bounds",
    "point_probe_edge_refuted"
   ],
   "note": ""
  },
  {
   "property": "C32",
   "status": "proved",
   "theorems": [
    "point_owner",
    "pressure_point_refuted"
   ],
   "note": ""
  },
  {
   "property": "C33",
   "status": "proved",
   "theorems": [
    "volume_probe_selects",
    "volume_probe_reversed"
   ],
   "note": ""
  },
  {
   "property": "C34",
   "status": "proved",
   "theorems": [
    "volume_probe_records"
   ],
   "note": ""
  },
  {
   "property": "C35",
   "status": "proved",
   "theorems": [
    "probe_schedule",
    "volume_probe_records",
    "point_probe_run",
    "probe_never_refuted"
   ],
   "note": ""
  },
  {
   "property": "C36",
   "status": "proved",
   "theorems": [
    "scheme_words",
    "scheme_consistent",
    "scheme_order"
   ],
   "note": ""
  },
  {
   "property": "C37",
   "status": "proved",
   "theorems": [
    "explicit_history",
    "momentum_right_hand_side"
   ],
   "note": "slot i of the state after k steps holds the term of the state after k-1-i steps"
  },
  {
   "property": "C38",
   "status": "proved",
   "theorems": [
    "run_length",
    "run_completes",
    "simulation_completes",
    "output_schedule",
    "save_every_zero_refuted"
   ],
   "note": ""
  },
  {
   "property": "C39",
   "status": "proved",
   "theorems": [
    "restart_equivalent",
    "simulation_restart",
    "restart_exact_solvers",
    "restart_convective_refuted"
   ],
   "note": "Dirichlet, Neumann, periodic boundaries. restart_equivalent: the Poisson solver must not depend on its initial guess. restart_exact_solvers: any solvers that return solutions, also other ones after the restart (one-term inverse, no Neumann condition on a normal velocity). restart_convective_refuted: false for convective boundaries"
  },
  {
   "property": "C40",
   "status": "proved",
   "theorems": [
    "crash_keeps_other_steps",
    "crash_keeps_completed_steps",
    "crash_recovery",
    "simulation_recovers",
    "stale_restart_file_refuted"
   ],
   "note": ""
  },
  {
   "property": "C41",
   "status": "proved",
   "theorems": [
    "step_names_unique",
    "step_names_read_back",
    "step_names_sorted",
    "step_names_sorted_beyond_refuted",
    "xdmf_names_agree",
    "xdmf_names_negative_refuted"
   ],
   "note": ""
  },
  {
   "property": "C42",
   "status": "proved",
   "theorems": [
    "xdmf_default_lists_saved",
    "xdmf_loop_ends",
    "xdmf_entries_exist",
    "xdmf_default_refuted",
    "xdmf_step_nonpositive_refuted"
   ],
   "note": ""
  },
  {
   "property": "C43",
   "status": "proved",
   "theorems": [
    "settings_precedence",
    "settings_complete",
    "settings_missing_file",
    "settings_cli_kept",
    "settings_cli_overridden_refuted"
   ],
   "note": ""
  },
  {
   "property": "C44",
   "status": "proved",
   "theorems": [
    "documented_words",
    "unknown_words_refuted",
    "misspelt_location_refuted",
    "misspelt_field_refuted",
    "misspelt_bctype_refuted",
    "misspelt_direction_refuted",
    "misspelt_probe_refuted",
    "pressure_bc_refuted",
    "location_synonyms"
   ],
   "note": ""
  },
  {
   "property": "C45",
   "status": "proved",
   "theorems": [
    "factories_that_report",
    "factories_never_report_refuted",
    "mesh_without_flow_refuted",
    "mesh_bad_periodic_refuted",
    "boundary_without_condition_refuted",
    "bodies_missing_refuted",
    "scheme_words"
   ],
   "note": ""
  },
  {
   "property": "C46",
   "status": "proved",
   "theorems": [
    "body_file_read",
    "body_file_accepted",
    "body_file_in_bounds",
    "body_file_extra_line_refuted",
    "body_file_zero_refuted",
    "body_file_written_refuted",
    "body_file_roundtrip_with_count",
    "cxx_syntax_proper",
    "numerals_read",
    "counts_read",
    "numeral_file_read",
    "body_written_and_read",
    "body_printed_refuted"
   ],
   "note": "the stronger claims (no out-of-bounds access for any file, write then read) are false of the code: see the _refuted theorems"
  },
  {
   "property": "C47",
   "status": "proved",
   "theorems": [
    "host_cells",
    "host_cell_unique",
    "host_cells_reject"
   ],
   "note": ""
  },
  {
   "property": "C48",
   "status": "proved",
   "theorems": [
    "integrated_forces",
    "integrated_forces_independent"
   ],
   "note": ""
  },
  {
   "property": "C49",
   "status": "proved",
   "theorems": [
    "coupled_divergence_free_and_no_slip",
    "coupled_no_slip_at_points",
    "coupled_momentum",
    "coupled_never_fails",
    "decoupled_divergence_free",
    "decoupled_slip",
    "decoupled_momentum",
    "decoupled_never_fails",
    "coupled_initial_pressure_refuted",
    "decoupled_no_slip_lost_refuted"
   ],
   "note": "The linear solves are premises: a solver that returns an exact solution. The no-slip condition of the decoupled solver after the projection is refuted as first stated; the theorem says what holds."
  },
  {
   "property": "C50",
   "status": "proved",
   "theorems": [
    "moving_bodies_follow_time",
    "moving_slip",
    "moving_divergence_free",
    "moving_never_fails",
    "body_files_hold_step_positions",
    "restart_body_file_refuted",
    "resting_bodies",
    "oscillating_cylinder_motion"
   ],
   "note": "The linear solves are premises, as for C49."
  },
  {
   "property": "C51",
   "status": "proved",
   "theorems": [
    "vorticity_in_bounds",
    "vorticity_run",
    "vorticity_z",
    "vorticity_of_linear_flow",
    "vorticity_at_walls",
    "vorticity_xy_displaced",
    "vorticity_positions",
    "curl_of_gradient",
    "vorticity_circulation",
    "vorticity_bad_step_refuted",
    "vorticity_cut_wall_refuted",
    "vorticity_x_displaced_refuted"
   ],
   "note": ""
  },
  {
   "property": "C52",
   "status": "proved",
   "theorems": [
    "solution_file_roundtrip",
    "solution_file_natural_order"
   ],
   "note": ""
  },
  {
   "property": "C53",
   "status": "proved",
   "theorems": [
    "initial_conditions",
    "initial_conditions_too_few_refuted",
    "initial_conditions_need_viscosity"
   ],
   "note": ""
  },
  {
   "property": "C54",
   "status": "proved",
   "theorems": [
    "double_loop_visits",
    "triple_loop_visits"
   ],
   "note": ""
  },
  {
   "property": "C55",
   "status": "proved",
   "theorems": [
    "fractional_step_momentum"
   ],
   "note": "exact momentum solve is a hypothesis"
  },
  {
   "property": "C56",
   "status": "proved",
   "theorems": [
    "ns_run_never_fails"
   ],
   "note": "the convection operator is a parameter here; its in-bounds property is C24"
  },
  {
   "property": "C57",
   "status": "proved",
   "theorems": [
    "solution_file_roundtrip",
    "restart_other_ranks_refuted"
   ],
   "note": "first half proved; second half is a counterexample"
  },
  {
   "property": "C58",
   "status": "proved",
   "theorems": [
    "configuration_builds_simulation"
   ],
   "note": ""
  },
  {
   "property": "C59",
   "status": "proved",
   "theorems": [
    "coupled_forces_file",
    "decoupled_forces_file",
    "moving_forces_file",
    "forces_balance",
    "forces_runs_complete",
    "ib_simulations_complete"
   ],
   "note": ""
  },
  {
   "property": "C60",
   "status": "proved",
   "theorems": [
    "coupled_restart",
    "decoupled_restart",
    "moving_restart",
    "coupled_simulation_restart",
    "decoupled_simulation_restart",
    "moving_simulation_restart"
   ],
   "note": "The linear solvers are parameters that must not depend on their initial guess."
  },
  {
   "property": "C61",
   "status": "proved",
   "theorems": [
    "momentum_system_unique",
    "momentum_solution_bounded",
    "pinned_poisson_solvable",
    "nullspace_poisson_solvable"
   ],
   "note": "The Poisson part is for BN of order 1 and no Neumann condition on a normal velocity."
  },
  {
   "property": "C62",
   "status": "proved",
   "theorems": [
    "run_independent_of_grid",
    "run_independent_of_solver"
   ],
   "note": "Exact linear solves are a premise (iterative solvers return approximations); BN of order 1. With flow through a boundary that is cut by the process grid the claim fails: conv_decomposition_refuted (C25)."
  },
  {
   "property": "C63",
   "status": "proved",
   "theorems": [
    "divergence_is_residual",
    "pinned_divergence_is_residual",
    "momentum_residual",
    "coupled_residual",
    "decoupled_residual",
    "moving_residual"
   ],
   "note": "Exact arithmetic; the linear solvers are arbitrary functions."
  },
  {
   "property": "C64",
   "status": "proved",
   "theorems": [
    "failed_solve_stops_run",
    "run_completes_or_stops",
    "coupled_failed_solve",
    "decoupled_failed_solve",
    "moving_failed_solve"
   ],
   "note": "KSPSolve is a parameter that returns a solution and a KSPConvergedReason. The AmgX solver is not modelled."
  },
  {
   "property": "C65",
   "status": "proved",
   "theorems": [
    "program_runs_configuration",
    "program_completes",
    "command_line_runs_configuration",
    "program_restart",
    "solver_section_missing_refuted",
    "scheme_default_refuted",
    "implicit_convection_refuted",
    "probe_viewer_refuted"
   ],
   "note": "The configuration is an abstract YAML tree; number syntax and expressions are parameters, as for C47. What the solvers return and what the probes write are functions of their descriptions. The refuted theorems are findings 26-29."
  },
  {
   "property": "C66",
   "status": "proved",
   "theorems": [
    "ibpm_program_runs_configuration",
    "decoupled_program_runs_configuration",
    "oscillating_program_runs_configuration",
    "ib_programs_complete",
    "oscillating_program_completes",
    "ibpm_program_restart",
    "decoupled_program_restart",
    "oscillating_program_restart",
    "unknown_kernel_reported",
    "bad_body_refuted",
    "center_required_refuted"
   ],
   "note": "As C65; the body files are texts read by the stream syntax of C28. Restart needs linear solvers that do not depend on their initial guess."
  },
  {
   "property": "C67",
   "status": "proved",
   "theorems": [
    "restart_other_grid",
    "restart_exact_solvers",
    "restart_moves_terms",
    "restart_two_levels",
    "restart_other_grid_refuted"
   ],
   "note": "restart_other_grid: at most one explicit term of each kind, impermeable or periodic boundaries, built-in convection, one-term inverse. restart_other_grid_refuted: with second-order Adams-Bashforth the resumed run does not continue the flow; restart_two_levels says when it can."
  },
  {
   "property": "C68",
   "status": "proved",
   "theorems": [
    "grid_file_written",
    "solution_displayed",
    "pipeline_displayed",
    "utilities_use_configuration",
    "program_pipeline",
    "vorticity_lost_refuted"
   ],
   "note": "The viewer is the specification XdmfSpec.displayed (3DRectMesh, VXVYVZ, C order); the XML syntax is not modelled. The time label of an entry is the step number. vorticity_lost_refuted is finding 32. The x and y vorticity of a 3D flow is displayed at the right points with the values of C51 (displaced by a cell)."
  },
  {
   "property": "C69",
   "status": "proved",
   "theorems": [
    "probes_do_not_disturb",
    "probe_files_written",
    "probe_files_complete",
    "coupled_probes_do_not_disturb",
    "coupled_probe_files",
    "decoupled_probe_files",
    "moving_probe_files",
    "program_probe_files",
    "coupled_pressure_probe_refuted",
    "probe_dataset_lost_refuted",
    "resumed_probe_file_refuted"
   ],
   "note": "Usable probes: a step between records that is not 0, a field of the mesh (a velocity component for a point probe) and a box whose limits are not reversed around a gridline. The layout of ASCII text is not modelled (blocks, lines and index sets are). The refuted theorems are findings 33-35."
  },
  {
   "property": "C70",
   "status": "proved",
   "theorems": [
    "viscosity_dissipates",
    "pressure_does_no_work",
    "energy_budget",
    "stokes_energy_never_increases",
    "coupled_energy_budget",
    "coupled_energy_never_increases",
    "exact_solver_exists"
   ],
   "note": "BN of order 1 and exact solves are premises (exact_solver_exists: they can be met for every matrix). Crank-Nicolson diffusion and explicit terms are in energy_budget, not in the inequalities. The decoupled solver is not covered: its steps do not satisfy the inequality in this form."
  },
  {
   "property": "C71",
   "status": "proved",
   "theorems": [
    "every_object_freed",
    "steps_lose_nothing",
    "destroy_twice",
    "coupled_destroy_twice_refuted",
    "destroy_before_init_refuted",
    "destroy_during_init_refuted",
    "approximate_inverse_frees",
    "approximate_inverse_leaks_refuted"
   ],
   "note": "Objects with reference counts as PETSc documents them; objects inside PETSc and AmgX are not modelled. destroy_during_init_refuted is for the Navier-Stokes solver. The refuted theorems are findings 36-38."
  },
  {
   "property": "C72",
   "status": "proved",
   "theorems": [
    "convection_does_no_work",
    "convection_of_run_does_no_work",
    "explicit_convection_energy",
    "convection_work_refuted"
   ],
   "note": "Uniform meshes, boundaries nothing flows through; exact linear solvers for the statements about runs. convection_work_refuted shows that the uniformity is needed (finding 39)."
  },
  {
   "property": "C73",
   "status": "proved",
   "theorems": [
    "momentum_conserved",
    "coupled_momentum_balance",
    "coupled_forces_are_momentum_lost",
    "decoupled_forces_are_momentum_lost",
    "moving_forces_are_momentum_lost"
   ],
   "note": "The velocity solver is exact (premise); the pressure and force solvers are arbitrary. The statements about forces files are for new runs on uniform meshes, as the delta kernel sums to one only there."
  },
  {
   "property": "C74",
   "status": "proved",
   "theorems": [
    "steady_flow_kept",
    "free_stream_kept",
    "couette_flow_kept"
   ],
   "note": "Both linear solvers are exact and the order of the approximate inverse is 1 (premises). With more than one explicit diffusion term the viscous force must be zero, since the terms of the missing past steps are zero at the start of a run; for the same reason convection must be zero."
  },
  {
   "property": "C75",
   "status": "proved",
   "theorems": [
    "api_example_runs",
    "api_example_agrees",
    "api_file_after_2000_steps_refuted",
    "api_example_configuration_refuted"
   ],
   "note": "The two _refuted theorems are about sentences of the README and the shipped configuration of the example."
  },
  {
   "property": "C76",
   "status": "proved",
   "theorems": [
    "plane_flow_kept"
   ],
   "note": "With something flowing through the boundaries the theorem asks for process grids that do not cut the planes (the fault of C23)."
  },
  {
   "property": "C77",
   "status": "proved",
   "theorems": [
    "frame_independent",
    "similar_flows",
    "mirror_symmetry_kept"
   ],
   "note": "Reversal of periodic directions is not covered: the periodic mesh stores its face points shifted by one."
  },
  {
   "property": "C78",
   "status": "proved",
   "theorems": [
    "coupled_run_independent_of_solver",
    "decoupled_run_independent_of_solver",
    "decoupled_total_force_independent_of_solver",
    "moving_run_independent_of_solver",
    "far_apart_points_are_felt",
    "coupled_exact_solvers_suffice",
    "decoupled_exact_solvers_suffice",
    "moving_exact_solvers_suffice",
    "coincident_bodies_refuted"
   ],
   "note": "The order of the approximate inverse is 1 (premise; the operators are then weighted adjoints). For moving bodies the forces of every step must be determined (forces_felt), as the forces found for one position are spread from the next. The *_solvers_suffice theorems show that with walls at rest every system met has a solution."
  },
  {
   "property": "C79",
   "status": "proved",
   "theorems": [
    "coupled_run_independent_of_grid",
    "decoupled_run_independent_of_grid",
    "decoupled_total_force_independent_of_grid",
    "moving_run_independent_of_grid",
    "forces_line_independent_of_grid"
   ],
   "note": "The order of the approximate inverse is 1, the cells around the bodies are of equal size in each direction, and nothing flows through the boundaries (premises; the convection operator is known to depend on the grid otherwise, see C62)."
  },
  {
   "property": "C80",
   "status": "proved",
   "theorems": [
    "delta_entries_on_any_mesh",
    "delta_entries_independent_of_grid_refuted",
    "delta_entries",
    "interpolation_exact",
    "coupled_no_slip_at_points",
    "coupled_never_fails",
    "decoupled_never_fails",
    "moving_never_fails",
    "ib_programs_complete"
   ],
   "note": "The entry theorem for any mesh excludes periodic directions (where the flags of C30 matter). The independence of the process grid is refuted where the cells differ around a body; C79 is the positive statement."
  },
  {
   "property": "C81",
   "status": "proved",
   "theorems": [
    "decoupled_restart_other_grid",
    "moving_restart_other_grid",
    "coupled_restart_other_grid",
    "one_body_same_order",
    "same_shares_same_order",
    "restart_moves_forces",
    "restart_other_places_refuted"
   ],
   "note": "The same-grid case D1 = D2 (other linear solvers) has no condition on the time integration. Finding 44: several bodies on another number of processes."
  },
  {
   "property": "C82",
   "status": "proved",
   "theorems": [
    "laplacian_second_order",
    "divergence_second_order",
    "gradient_accuracy",
    "convection_second_order",
    "wall_row_refuted"
   ],
   "note": "Bounds with explicit constants from derivatives near the point (stdlib derivable_pt_lim). wall_row_refuted is the limit of the claim: rows next to Dirichlet walls (finding 45)."
  },
  {
   "property": "C83",
   "status": "proved",
   "theorems": [
    "coupled_file_operations",
    "decoupled_file_operations",
    "moving_file_operations",
    "coupled_crash_keeps_steps",
    "decoupled_crash_keeps_steps",
    "moving_crash_keeps_steps",
    "coupled_crash_recovery",
    "decoupled_crash_recovery",
    "moving_crash_recovery",
    "restart_without_forces_refused"
   ],
   "note": "The lines of the forces file are outside the disk model: lines the killed run had written may be lost with it; the recovered run writes the lines from the restart step on."
  },
  {
   "property": "C84",
   "status": "proved",
   "theorems": [
    "own_file_decides",
    "solvers_are_independent",
    "prefixes_are_apart",
    "later_files_have_no_effect",
    "command_line_refuted"
   ],
   "note": "command_line_refuted is the limit of the claim (finding 46): files are inserted after the command line."
  },
  {
   "property": "C85",
   "status": "proved",
   "theorems": [
    "time_drift",
    "time_increases",
    "time_increases_refuted",
    "interrupted_run_has_same_times",
    "probe_records_inside",
    "probe_records_only",
    "probe_start_refuted"
   ],
   "note": "time_increases_refuted and probe_start_refuted are the limits of the claim (finding 47). The doubles are Flocq's binary64; overflow and underflow are covered by Flocq, the sizes are bounded by 2^1000."
  },
  {
   "property": "C86",
   "status": "proved",
   "theorems": [
    "vertex_positions",
    "vertices_in_order",
    "pressure_point_inside_cell",
    "uniform_vertex_positions",
    "uniform_vertices_in_order",
    "last_vertex_refuted"
   ],
   "note": "last_vertex_refuted is the limit of the claim (finding 48). Stretched sub-domains are covered by vertex_positions and vertices_in_order for whatever widths std::pow produces."
  },
  {
   "property": "C87",
   "status": "proved",
   "theorems": [
    "iterations_file_tells_solves",
    "coupled_iterations_file",
    "decoupled_iterations_file",
    "moving_iterations_file",
    "reported_residual_bounds_divergence",
    "coupled_reported_residual",
    "decoupled_reported_residual",
    "decoupled_reported_slip",
    "moving_reported_residual"
   ],
   "note": "That the solver reports the Euclidean norm of b - A x is a premise (reports_residual); KSP reports a preconditioned norm unless -ksp_norm_type unpreconditioned is set. The layout of the text is not modelled."
  },
  {
   "property": "C88",
   "status": "proved",
   "theorems": [
    "coupled_results",
    "decoupled_results",
    "moving_results"
   ],
   "note": "The probes are a parameter: they must stay away from the solution files and the grid file (writes_elsewhere, off_grid), as in C68; C69 is about the files of the probes themselves."
  },
  {
   "property": "C89",
   "status": "proved",
   "theorems": [
    "every_number_prints",
    "rows_read_once",
    "forces_columns",
    "probe_columns",
    "iterations_columns",
    "times_in_order",
    "times_coincide_refuted",
    "body_written_and_read"
   ],
   "note": "printf is a premise (printed_e, printed_d: what ISO C says of %.<p>e and %d); numbers are reals, so infinities and NaN are not covered."
  },
  {
   "property": "C90",
   "status": "proved",
   "theorems": [
    "gpu_own_file",
    "gpu_defaults",
    "gpu_defaults_one_process",
    "gpu_defaults_race_refuted",
    "gpu_creation_proceeds"
   ],
   "note": "Whether the AmgX wrapper makes the processes wait is a parameter: it is not part of the code."
  },
  {
   "property": "C91",
   "status": "proved",
   "theorems": [
    "directories_any_order",
    "directories_exist",
    "directories_made",
    "file_in_the_way_refuted",
    "directories_proceed"
   ],
   "note": "mkdir is modelled as one indivisible action; the refuted theorem is a finding."
  },
  {
   "property": "C92",
   "status": "proved",
   "theorems": [
    "files_any_order",
    "barriers_proceed",
    "point_file_any_order",
    "point_file_needs_barrier",
    "volume_file_any_order",
    "volume_file_opened",
    "volume_file_opened_refuted"
   ],
   "note": "Whether MPI makes the processes wait when they open an HDF5 file together is a parameter: it is not part of the code."
  },
  {
   "property": "C93",
   "status": "proved",
   "theorems": [
    "kernel_rounding",
    "kernel_support_exact",
    "kernel_even_exact",
    "weights_add_up",
    "delta_rounding",
    "kernel_positive_refuted"
   ],
   "note": "IEEE double precision, rounding to nearest, each operation rounded: no fused multiply-add and no extended precision."
  },
  {
   "property": "C94",
   "status": "proved",
   "theorems": [
    "averages_written",
    "averages_close",
    "steady_average_refuted"
   ],
   "note": "For each entry of the vectors; VecAXPY with factor 1 is an addition and VecScale a multiplication by the double 1/count. The refuted theorem is a finding."
  }
 ]
}