{
 "claims": [
  {
   "property": "C01",
   "status": "proved",
   "theorems": [
    "C01_visits_nested_loops",
    "C01_every_cell_once"
   ],
   "note": ""
  },
  {
   "property": "C02",
   "status": "proved",
   "theorems": [
    "C02_flat_to_indices_to_flat",
    "C02_indices_to_flat_to_indices",
    "C02_flat_index_is_position",
    "C02_int_instance_agrees"
   ],
   "note": ""
  },
  {
   "property": "C03",
   "status": "proved",
   "theorems": [
    "C03_any_history",
    "C03_begin_restarts",
    "C03_past_end_wraps"
   ],
   "note": ""
  },
  {
   "property": "C04",
   "status": "proved",
   "theorems": [
    "C04_zero_extent_empty_loop",
    "C04_zero_extent_getIndices_undefined",
    "C04_no_axes_undefined",
    "C04_no_axes_empty_product_refuted"
   ],
   "note": "Zero axes: the ideal empty product is refuted (C04_no_axes_empty_product_refuted), the code is undefined there."
  },
  {
   "property": "C05",
   "status": "proved",
   "theorems": [
    "C05_build_iff_decomposition_exists"
   ],
   "note": ""
  },
  {
   "property": "C06",
   "status": "partial",
   "theorems": [
    "C06_modulo",
    "C06_four_billion",
    "C06_decomposition_valid",
    "C06_unbounded_refuted"
   ],
   "note": "Proved for grids of fewer than 2^32 + nprocs cells with axes of any size_t size (C06_four_billion; C06_decomposition_valid is the earlier bound 2^31). C06_modulo: on any grid the result consists of divisors whose product is the number of processes modulo 2^32. C06_unbounded_refuted shows that the unrestricted claim is false (std::accumulate over an int)."
  },
  {
   "property": "C07",
   "status": "proved",
   "theorems": [
    "C07_tiling"
   ],
   "note": ""
  },
  {
   "property": "C08",
   "status": "proved",
   "theorems": [
    "C08_load_balance"
   ],
   "note": ""
  },
  {
   "property": "C09",
   "status": "proved",
   "theorems": [
    "C09_periodic_neighbour"
   ],
   "note": ""
  },
  {
   "property": "C10",
   "status": "partial",
   "theorems": [
    "C10_valid_rank_partial",
    "C10_valid_rank_refuted",
    "C10_exact",
    "C10_neighbour_iff",
    "C10_valid_iff"
   ],
   "note": "False as promised by the header (C10_valid_rank_refuted). C10_valid_rank_partial covers all directions with |dir| <= number of processes along each axis. C10_exact gives the result for every direction, C10_neighbour_iff and C10_valid_iff say exactly which displacements along one axis give the periodic neighbour, and a valid rank for all processes (the product of displacement and number of processes being below 2^30; C10_overflow shows that some bound is needed, C10_two_axes that lengths do not decide for two axes at once)."
  },
  {
   "property": "C11",
   "status": "proved",
   "theorems": [
    "C11_neighbour_symmetric",
    "C11_neighbour_injective"
   ],
   "note": ""
  },
  {
   "property": "C12",
   "status": "proved",
   "theorems": [
    "C12_history_independent"
   ],
   "note": ""
  },
  {
   "property": "C13",
   "status": "partial",
   "theorems": [
    "C13_exact",
    "C13_one_cell_axis",
    "C13_optimal_iff",
    "C13_optimal_refuted",
    "C13_optimal_but_one_partial"
   ],
   "note": "False (C13_optimal_refuted: the first candidate is never considered). C13_exact determines the decomposition returned, ties included, when no axis has one cell; C13_one_cell_axis: the claim holds when an axis has one cell; C13_optimal_iff says exactly when it holds. Reals axioms of the standard library through Flocq."
  },
  {
   "property": "C14",
   "status": "proved",
   "theorems": [
    "C14_cubic_optimal"
   ],
   "note": "The cost is compared in IEEE double arithmetic. Reals axioms of the standard library through Flocq."
  },
  {
   "property": "C15",
   "status": "proved",
   "theorems": [
    "C15_divisors"
   ],
   "note": ""
  },
  {
   "property": "C16",
   "status": "proved",
   "theorems": [
    "C16_failed_build_unusable",
    "C16_constructor_hides_failure"
   ],
   "note": ""
  },
  {
   "property": "C17",
   "status": "proved",
   "theorems": [
    "C17_accepts_iff_registered",
    "C17_defined"
   ],
   "note": ""
  },
  {
   "property": "C18",
   "status": "proved",
   "theorems": [
    "C18_rejected_changes_nothing"
   ],
   "note": ""
  },
  {
   "property": "C19",
   "status": "proved",
   "theorems": [
    "C19_last_value_wins",
    "C19_no_value_keeps_previous",
    "C19_cases"
   ],
   "note": ""
  },
  {
   "property": "C20",
   "status": "proved",
   "theorems": [
    "C20_flag_parity"
   ],
   "note": ""
  },
  {
   "property": "C21",
   "status": "proved",
   "theorems": [
    "C21_unmentioned_unchanged",
    "C21_stray_ignored"
   ],
   "note": ""
  },
  {
   "property": "C22",
   "status": "proved",
   "theorems": [
    "C22_unknown_gives_sentinel",
    "C22_default_until_parse"
   ],
   "note": ""
  },
  {
   "property": "C23",
   "status": "proved",
   "theorems": [
    "C23_negative_number_accepted",
    "C23_negative_number_is_a_value",
    "C23_no_leading_digit_rejected"
   ],
   "note": ""
  },
  {
   "property": "C24",
   "status": "proved",
   "theorems": [
    "C24_int_read_exactly",
    "C24_int_accepted",
    "C24_out_of_range_undefined"
   ],
   "note": ""
  },
  {
   "property": "C25",
   "status": "proved",
   "theorems": [
    "C25_help_complete"
   ],
   "note": ""
  },
  {
   "property": "C26",
   "status": "proved",
   "theorems": [
    "C26_constructor",
    "C26_storage_tiles"
   ],
   "note": ""
  },
  {
   "property": "C27",
   "status": "proved",
   "theorems": [
    "C27_set_by_indices",
    "C27_set_by_position",
    "C27_border_is_what_is_read"
   ],
   "note": ""
  },
  {
   "property": "C28",
   "status": "proved",
   "theorems": [
    "C28_parallel_equals_serial",
    "C28_programs",
    "C28_undivided_axes"
   ],
   "note": ""
  },
  {
   "property": "C29",
   "status": "proved",
   "theorems": [
    "C29_process_count_independent"
   ],
   "note": ""
  },
  {
   "property": "C30",
   "status": "proved",
   "theorems": [
    "C30_iterates"
   ],
   "note": ""
  },
  {
   "property": "C31",
   "status": "partial",
   "theorems": [
    "C31_serial_semantics",
    "C31_periodic_iff",
    "C31_default_size_refuted",
    "C31_periodic_refuted"
   ],
   "note": "False in general (C31_default_size_refuted, C31_periodic_refuted); C31_periodic_iff shows it holds exactly for sizes dividing 2^64, C31_serial_semantics says what is computed otherwise."
  },
  {
   "property": "C32",
   "status": "proved",
   "theorems": [
    "C32_check_sum",
    "C32_weights_times_input"
   ],
   "note": ""
  },
  {
   "property": "C33",
   "status": "proved",
   "theorems": [
    "C33_copyOutToIn"
   ],
   "note": ""
  },
  {
   "property": "C34",
   "status": "partial",
   "theorems": [
    "C34_saveVTK_reassembles",
    "C34_nonroot_front_refuted",
    "C34_print"
   ],
   "note": "Rank 0 reassembles the field; on the other ranks the call takes the address of the first element of an empty vector (C34_nonroot_front_refuted)."
  },
  {
   "property": "C35",
   "status": "partial",
   "theorems": [
    "C35_overshoot",
    "C35_long_diagonal",
    "C35_exactly_unit",
    "C35_any_reach_refuted",
    "C35_shared_side_refuted",
    "C35_two_or_more_cells",
    "C35_axis_stencils"
   ],
   "note": "Proved for displacements of one cell (C28, C71). C35_any_reach_refuted and C35_shared_side_refuted give failing programs; C35_two_or_more_cells proves that every displacement of two or more cells along one axis makes every program that calls applyFilter undefined as soon as a process owns two cells along that axis, and C35_axis_stencils is the resulting exact condition for stencils along the axes. Along several axes at once: C35_overshoot (a process asks for a rank that does not exist, whatever the number of cells per process), C35_long_diagonal (no overshoot, two cells or more per process) and the exact condition C35_exactly_unit. Missing: overshoots that cancel (DiagProps.ex_cancel shows that such a program can run) and one cell per process without overshoot (ReachProps.ex_one_cell_each)."
  },
  {
   "property": "C36",
   "status": "proved",
   "theorems": [
    "C36_every_schedule",
    "C36_no_deadlock",
    "C36_terminates",
    "C36_reads_between_fences",
    "C36_fields"
   ],
   "note": "For every program of applyFilter, copyOutToIn, setInData..., check sums and printing on filters just constructed whose lock-step execution is defined (C28-C32 say when). The whole programs, with construction, reductions and gathering: C72."
  },
  {
   "property": "C37",
   "status": "partial",
   "theorems": [
    "C37_all_released_once",
    "C37_shared_side_refuted"
   ],
   "note": "Proved for stencils along the axes; C37_shared_side_refuted: branches that share a side leak. The exact number of leaked resources for every stencil: C73."
  },
  {
   "property": "C38",
   "status": "proved",
   "theorems": [
    "C38_invalid_decomposition_unusable",
    "C38_testStencil2d_undefined"
   ],
   "note": ""
  },
  {
   "property": "C39",
   "status": "proved",
   "theorems": [
    "C39_driver_field",
    "C39_stencil_is_laplacian",
    "C39_constants",
    "C39_zero_check_sum",
    "C39_driver_check_sums",
    "C39_driver_invalid"
   ],
   "note": ""
  },
  {
   "property": "C40",
   "status": "proved",
   "theorems": [
    "C40_cell_centres",
    "C40_spacing_and_symmetry"
   ],
   "note": ""
  },
  {
   "property": "C41",
   "status": "proved",
   "theorems": [
    "C41_flat_of_index_set",
    "C41_index_set_of_flat",
    "C41_distinct"
   ],
   "note": ""
  },
  {
   "property": "C42",
   "status": "proved",
   "theorems": [
    "C42_driver",
    "C42_every_field",
    "C42_constructor",
    "C42_one_step",
    "C42_advect"
   ],
   "note": ""
  },
  {
   "property": "C43",
   "status": "proved",
   "theorems": [
    "C43_conservation"
   ],
   "note": ""
  },
  {
   "property": "C44",
   "status": "proved",
   "theorems": [
    "C44_maximum_principle"
   ],
   "note": ""
  },
  {
   "property": "C45",
   "status": "proved",
   "theorems": [
    "C45_spread"
   ],
   "note": ""
  },
  {
   "property": "C46",
   "status": "proved",
   "theorems": [
    "C46_every_schedule",
    "C46_completes",
    "C46_field"
   ],
   "note": "Threads interleave single accesses to f and oldF; barriers at the end of each omp for. Holds for every object on which the sequential advect is defined. C46_completes: executions are bounded and can always be completed."
  },
  {
   "property": "C47",
   "status": "partial",
   "theorems": [
    "C47_one_team_partial",
    "C47_race_refuted",
    "C47_result_refuted",
    "C47_idle_teams",
    "C47_race_free_iff",
    "C47_single_step"
   ],
   "note": "False as claimed: C47_race_refuted (a data race is reachable whenever two teams have time steps), C47_result_refuted (a complete execution with a wrong field). The exact condition is C47_race_free_iff: no execution has a data race iff one team has all the time steps; then every execution gives the sequential field (C47_idle_teams; C47_one_team_partial, C47_single_step are special cases). A team is modelled as one thread."
  },
  {
   "property": "C48",
   "status": "proved",
   "theorems": [
    "C48_constructor",
    "C48_formula",
    "C48_versions_agree",
    "C48_same_as_upwind",
    "C48_reals",
    "C48_doubles_refuted",
    "C48_same_output",
    "C48_drivers",
    "C48_driver_field"
   ],
   "note": "The three versions agree bit for bit in any arithmetic, and agree with upwind when products and quotients regroup (real numbers). C48_doubles_refuted: in double precision upwind and upwindAcc differ (7 cells per axis, one step). Loops taken in counter order."
  },
  {
   "property": "C49",
   "status": "proved",
   "theorems": [
    "C49_driver_field",
    "C49_stencil_is_upwind",
    "C49_same_as_upwind",
    "C49_driver_invalid",
    "C49_other_sizes_refuted",
    "C49_doubles_refuted"
   ],
   "note": "Real arithmetic, sizes dividing 2^64. C49_driver_field holds for any arithmetic and any velocities. C49_other_sizes_refuted: three cells per axis give check sum 1.3, six cells on two processes are undefined; C49_doubles_refuted: not the same in double precision."
  },
  {
   "property": "C50",
   "status": "partial",
   "theorems": [
    "C50_untouched",
    "C50_exactly",
    "C50_driver_last_cell",
    "C50_truncated_loop",
    "C50_all_cells_partial",
    "C50_all_cells_refuted"
   ],
   "note": "False as claimed (C50_all_cells_refuted: 2048^3 cells; C50_truncated_loop for all such sizes); C50_all_cells_partial covers grids of fewer than 2^31 cells with axes of at most 2^30. The exact condition is C50_exactly: with axes of at most 2^30 cells one step is the scheme for every field iff the grid has fewer than 2^31 cells (exact arithmetic, nonzero velocities). C50_untouched: the cells from (int) ntot on are never written, in any arithmetic; C50_driver_last_cell: so for the program with 1291 or more cells along each axis."
  },
  {
   "property": "C51",
   "status": "proved",
   "theorems": [
    "C51_compose",
    "C51_no_steps"
   ],
   "note": ""
  },
  {
   "property": "C52",
   "status": "proved",
   "theorems": [
    "C52_vtk"
   ],
   "note": ""
  },
  {
   "property": "C53",
   "status": "proved",
   "theorems": [
    "C53_file",
    "C53_more_axes",
    "C53_short_field",
    "C53_point",
    "C53_corners",
    "C53_centres",
    "C53_cell_value"
   ],
   "note": ""
  },
  {
   "property": "C54",
   "status": "proved",
   "theorems": [
    "C54_driver"
   ],
   "note": ""
  },
  {
   "property": "C55",
   "status": "proved",
   "theorems": [
    "C55_constant"
   ],
   "note": ""
  },
  {
   "property": "C56",
   "status": "proved",
   "theorems": [
    "C56_eigenfunction"
   ],
   "note": ""
  },
  {
   "property": "C57",
   "status": "proved",
   "theorems": [
    "C57_testStencil2d"
   ],
   "note": ""
  },
  {
   "property": "C58",
   "status": "partial",
   "theorems": [
    "C58_harmless_axes",
    "C58_exactly",
    "C58_long_axis_refuted"
   ],
   "note": "False (C58_long_axis_refuted). C58_harmless_axes: true in any arithmetic when every axis has at most 2^30 cells or divides 2^64 - 2^32; C58_exactly: over the reals, with velocities and lengths different from zero, that condition is necessary too."
  },
  {
   "property": "C59",
   "status": "proved",
   "theorems": [
    "C59_zero_cells",
    "C59_negative_cells"
   ],
   "note": ""
  },
  {
   "property": "C60",
   "status": "proved",
   "theorems": [
    "C60_fewer_axes",
    "C60_long_axis_refuted"
   ],
   "note": ""
  },
  {
   "property": "C61",
   "status": "proved",
   "theorems": [
    "C61_kernel",
    "C61_time_steps"
   ],
   "note": ""
  },
  {
   "property": "C62",
   "status": "proved",
   "theorems": [
    "C62_upwind",
    "C62_upwindAcc",
    "C62_upwindMpi",
    "C62_laplacian",
    "C62_testStencil2d",
    "C62_upwind_check_sum"
   ],
   "note": ""
  },
  {
   "property": "C63",
   "status": "proved",
   "theorems": [
    "C63_testMultiArrayIter",
    "C63_testCubeDecomp",
    "C63_testCubeDecomp_no_layout"
   ],
   "note": ""
  },
  {
   "property": "C64",
   "status": "proved",
   "theorems": [
    "C64_upwind",
    "C64_upwindAcc",
    "C64_upwind_driver",
    "C64_upwindAcc_driver"
   ],
   "note": "arD is IEEE binary64 as in the standard library's SpecFloat; no contraction to fused multiply-add. upwindMpi is not covered."
  },
  {
   "property": "C65",
   "status": "proved",
   "theorems": [
    "C65_upwind_driver",
    "C65_upwindAcc_driver",
    "C65_six_decimals",
    "C65_upwind_program",
    "C65_exact_refuted"
   ],
   "note": "C65_exact_refuted: the check sum is not exactly 1 for 3 cells along each axis and 2 steps."
  },
  {
   "property": "C66",
   "status": "proved",
   "theorems": [
    "C66_printed_value",
    "C66_not_finite",
    "C66_integer",
    "C66_error",
    "C66_order",
    "C66_same_text",
    "C66_small_integer",
    "C66_lossless_refuted"
   ],
   "note": "C66_lossless_refuted: reading the printed text back does not give the number."
  },
  {
   "property": "C67",
   "status": "proved",
   "theorems": [
    "C67_upwind",
    "C67_upwindAcc",
    "C67_cases",
    "C67_upwind_report",
    "C67_upwindAcc_report",
    "C67_tests_pass",
    "C67_pattern_refuted",
    "C67_bare_numbers"
   ],
   "note": "Timings are not printed by these programs. C67_pattern_refuted: the pattern in CMakeLists.txt is a character class and accepts check sums 0.5, 1.3 and 0. Ranks and times of the MPI programs are not covered here."
  },
  {
   "property": "C68",
   "status": "proved",
   "theorems": [
    "C68_saveVTK",
    "C68_upwind",
    "C68_upwindAcc",
    "C68_writeVTK",
    "C68_writeVTK_more"
   ],
   "note": "The reader is written from the description of the legacy VTK format (TextSpec.v). Opening and writing the file never fail in the model."
  },
  {
   "property": "C69",
   "status": "proved",
   "theorems": [
    "C69_upwindMpi",
    "C69_exact_refuted",
    "C69_order_refuted"
   ],
   "note": "Sizes that are no power of two: see C49 (the offsets wrap wrongly or the access is out of bounds). C69_exact_refuted, C69_order_refuted: the sum is not exactly 1 and depends on the order of the reduction."
  },
  {
   "property": "C70",
   "status": "proved",
   "theorems": [
    "C70_upwindMpi_report",
    "C70_upwindMpi_file",
    "C70_laplacian_test",
    "C70_upwindMpi_help",
    "C70_upwindMpi_run",
    "C70_laplacian_help",
    "C70_laplacian_run",
    "C70_testStencil2d_help",
    "C70_testStencil2d_run"
   ],
   "note": "How a launcher merges the streams of the ranks is not modelled; the times are arbitrary. Sizes that are no power of two: see C31, C35, C49. testStencil2d without a decomposition is undefined (C57)."
  },
  {
   "property": "C71",
   "status": "proved",
   "theorems": [
    "C71_apply",
    "C71_programs",
    "C71_axis_stencils",
    "C71_steps_to_the_right",
    "C71_periodic_iff",
    "C71_laplacian",
    "C71_laplacian_default",
    "C71_laplacian_default_serial_refuted",
    "C71_upwindMpi",
    "C71_testStencil2d"
   ],
   "note": "Displacements of more than one cell: see C35. C71_laplacian_default_serial_refuted: one iteration on one process with 8000 x 8000 cells is not the periodic Laplacian (real numbers)."
  },
  {
   "property": "C72",
   "status": "proved",
   "theorems": [
    "C72_upwindMpi",
    "C72_upwindMpi_run",
    "C72_laplacian",
    "C72_laplacian_run",
    "C72_testStencil2d",
    "C72_testStencil2d_run",
    "C72_upwindMpi_calls",
    "C72_laplacian_calls",
    "C72_testStencil2d_calls",
    "C72_file_strict_refuted"
   ],
   "note": "For every run that C70's model of the programs defines; C72_..._run spell out the cases of C70. C72_file_strict_refuted: with -vtk on two ranks, front() of an empty vector taken to be undefined, execution comes to EmptyFront. What MPI_Reduce makes of the contributions is an arbitrary function of their list. C72_..._calls hold for every command line and also for executions that do not end well."
  },
  {
   "property": "C73",
   "status": "proved",
   "theorems": [
    "C73_leak",
    "C73_no_leak_iff"
   ],
   "note": "For grids whose number of axes is less than 2^31 and displacements with one entry per axis, whenever construction is defined and a decomposition exists."
  },
  {
   "property": "C74",
   "status": "proved",
   "theorems": [
    "C74_constructor",
    "C74_constructor_iff",
    "C74_advect",
    "C74_same_as_cxx",
    "C74_reals",
    "C74_every_schedule",
    "C74_gpu_schedule",
    "C74_long_axis",
    "C74_main_iff",
    "C74_driver",
    "C74_doubles_refuted"
   ],
   "note": "The report of the number of threads printed at the start of upwind.F90 is not modelled. C74_doubles_refuted: 3 cells per axis, 3 steps, the two programs differ in the last bit of some values. The directive !$acc parallel loop is treated as the OpenMP one, with inds private."
  },
  {
   "property": "C75",
   "status": "proved",
   "theorems": [
    "C75_against_cxx",
    "C75_fits_iff",
    "C75_cube"
   ],
   "note": "What is characterised is a defect: for other grids than those of the program the file is inconsistent. The layout of the text is not modelled."
  },
  {
   "property": "C76",
   "status": "proved",
   "theorems": [
    "C76_constructor",
    "C76_advect",
    "C76_same_as_acc",
    "C76_same_as_cxx",
    "C76_body_iff",
    "C76_driver",
    "C76_doubles_same_as_acc",
    "C76_check_sum",
    "C76_usage",
    "C76_program",
    "C76_index_table_refuted"
   ],
   "note": "numpy.sum is any reduction of the values and at most two zeros (PySpec.v). C76_program: the test pattern is a character class; str() of a number between 1/2 and 3/2 is assumed to begin with 0 or 1. Exceptions are Undef; memory never runs out."
  },
  {
   "property": "C77",
   "status": "proved",
   "theorems": [
    "C77_words",
    "C77_unreadable",
    "C77_one_cell",
    "C77_program"
   ],
   "note": "What is characterised is a defect. C77_one_cell: with one cell the file reads like the C++ one."
  },
  {
   "property": "C78",
   "status": "proved",
   "theorems": [
    "C78_constructor",
    "C78_index_functions",
    "C78_one_call",
    "C78_advect",
    "C78_advect3",
    "C78_versions_agree",
    "C78_same_as_cxx",
    "C78_same_values",
    "C78_global_refuted",
    "C78_body_iff",
    "C78_driver",
    "C78_doubles_same_as_cxx",
    "C78_check_sum",
    "C78_usage",
    "C78_program",
    "C78_program3"
   ],
   "note": "sum() is any reduction of the values and at most two zeros (PySpec.v). C78_program, C78_program3: the test pattern is a character class; the text of a number between 1/2 and 3/2 is assumed to begin with 0 or 1. Exceptions are Undef; memory never runs out. C78_global_refuted: the field can be wrong when the global variable up is another object."
  },
  {
   "property": "C79",
   "status": "proved",
   "theorems": [
    "C79_read_back",
    "C79_cells",
    "C79_never_written"
   ],
   "note": "C79_never_written characterises a defect: linspace and the module saveVTK do not exist in the versions of Julia that run the rest."
  },
  {
   "property": "C80",
   "status": "proved",
   "theorems": [
    "C80_product",
    "C80_real_product",
    "C80_every_schedule",
    "C80_initmat",
    "C80_exact",
    "C80_in_order",
    "C80_program",
    "C80_read_error",
    "C80_sizes_refuted"
   ],
   "note": "Both products are evaluated as written (no contraction of a product and a sum). The intrinsic sum is any reduction of the values and at most two zeros. C80_sizes_refuted: ier is never assigned, so the sizes given need not be used. The text printed for the sizes is not modelled."
  },
  {
   "property": "C81",
   "status": "proved",
   "theorems": [
    "C81_benchmark",
    "C81_eigenfunction",
    "C81_constants",
    "C81_constants_3d_refuted",
    "C81_sine"
   ],
   "note": "sin and M_PI are parameters with the stated bounds; no contraction of products and sums. The bound on the check sum grows with the square of the number of cells, as any order is allowed. C81_constants_3d_refuted: the double after 1 is mapped to -2^-51."
  },
  {
   "property": "C82",
   "status": "proved",
   "theorems": [
    "C82_carried_solves",
    "C82_error",
    "C82_first_order",
    "C82_converges",
    "C82_unit_courant"
   ],
   "note": "Real arithmetic. The profile is assumed differentiable with a quadratic remainder bound; C82_carried_solves relates it to derivatives. The field of an object is arbitrary in the theorems, although the class offers no way to set it."
  },
  {
   "property": "C83",
   "status": "proved",
   "theorems": [
    "C83_dependence",
    "C83_untouched",
    "C83_driver"
   ],
   "note": "steady_exact and steady_double show which background values are steady."
  },
  {
   "property": "C84",
   "status": "proved",
   "theorems": [
    "C84_walk",
    "C84_corner",
    "C84_driver"
   ],
   "note": "Real arithmetic. C84_walk covers walks around the grid, C84_corner and C84_driver ask for fewer steps than cells along every axis. No sign condition on the probabilities."
  },
  {
   "property": "C85",
   "status": "proved",
   "theorems": [
    "C85_constructor",
    "C85_formula",
    "C85_gather",
    "C85_right",
    "C85_exactly",
    "C85_body",
    "C85_driver",
    "C85_file",
    "C85_usage",
    "C85_no_decomposition",
    "C85_program",
    "C85_negative_refuted",
    "C85_decompositions_refuted"
   ],
   "note": "The library mpinum is not in the repository: what is assumed of it is stated at the top of PyMpiModel.v and in DESIGN.md. C85_exactly, C85_right, C85_driver and C85_program are in real arithmetic. C85_negative_refuted: a negative velocity is not served; C85_decompositions_refuted: bits depend on the decomposition."
  },
  {
   "property": "C86",
   "status": "proved",
   "theorems": [
    "C86_check_sum",
    "C86_program",
    "C86_uniform_refuted"
   ],
   "note": "Doubles as in C64. The text of a double between 1/2 and 3/2 is assumed to start with 0 or 1 (C86_program). C86_uniform_refuted: a uniform field is not kept exactly."
  },
  {
   "property": "C87",
   "status": "proved",
   "theorems": [
    "C87_field",
    "C87_program",
    "C87_no_argument"
   ],
   "note": "Doubles as in C64, no contraction into fused operations. f15.9 is assumed to round to a nearest multiple of 10^-9 (f_edit; f15_9_ok gives an instance). The text of the compiler-dependent parts is arbitrary."
  },
  {
   "property": "C88",
   "status": "proved",
   "theorems": [
    "C88_hundred_steps",
    "C88_unreadable",
    "C88_dims_refuted"
   ],
   "note": "e20.7 is assumed to write seven digits nearest to the value (e_edit; e20_7_ok gives an instance). C88_unreadable and C88_dims_refuted are the negative halves of the statement. Nothing is said about more than 280 steps, where values near the smallest double would have to be followed."
  },
  {
   "property": "C89",
   "status": "proved",
   "theorems": [
    "C89_one_thread",
    "C89_private",
    "C89_silent_refuted",
    "C89_repeated_refuted",
    "C89_wrong_number_refuted",
    "C89_any",
    "C89_gpu"
   ],
   "note": "Sequentially consistent interleavings; OpenMP gives a racy program no meaning at all, so the model is the favourable reading. The three _refuted theorems hold for every number of threads from two on (C89_repeated_refuted from one on). That the rest of the program is not affected is C87_program, which holds for any report."
  },
  {
   "property": "C90",
   "status": "proved",
   "theorems": [
    "C90_constructor",
    "C90_advect",
    "C90_same_as_python",
    "C90_check_sum",
    "C90_too_many"
   ],
   "note": "The versions of Python and NumPy enter as two flags. Grids of fewer than 2^31 cells; numCells an array of int64. saveVTK cannot be called from Python and is not modelled."
  },
  {
   "property": "C91",
   "status": "proved",
   "theorems": [
    "C91_print",
    "C91_printOut"
   ],
   "note": "Any text of a double that is not empty and has no white space."
  },
  {
   "property": "C92",
   "status": "proved",
   "theorems": [
    "C92_first_step",
    "C92_maximum_principle_iff",
    "C92_modes",
    "C92_growth",
    "C92_unbounded",
    "C92_one_axis",
    "C92_even_axes"
   ],
   "note": "Real arithmetic; axes of at most 2^30 cells (see C42). Exactly when the values stay bounded: C94."
  },
  {
   "property": "C93",
   "status": "proved",
   "theorems": [
    "C93_marginal",
    "C93_mean",
    "C93_variance",
    "C93_covariance",
    "C93_as_many_steps_refuted"
   ],
   "note": "Real arithmetic. C93_as_many_steps_refuted: the bound on the number of steps is needed."
  },
  {
   "property": "C94",
   "status": "proved",
   "theorems": [
    "C94_sum_of_squares",
    "C94_std",
    "C94_bounded_iff",
    "C94_bounded_every_start",
    "C94_limit",
    "C94_bounded_beyond_the_limit",
    "C94_program"
   ],
   "note": "Real arithmetic; axes of at most 2^30 cells. C94_bounded_beyond_the_limit: bounded is weaker than the maximum principle of C92."
  },
  {
   "property": "C95",
   "status": "proved",
   "theorems": [
    "C95_fortran",
    "C95_cython",
    "C95_versions_agree",
    "C95_upwindMpi",
    "C95_upwindMpi_agrees",
    "C95_python_mpi",
    "C95_processes_agree",
    "C95_python",
    "C95_julia",
    "C95_upwind",
    "C95_upwindAcc",
    "C95_each_cell",
    "C95_multinomial",
    "C95_std",
    "C95_std_closed_form"
   ],
   "note": "IEEE binary64, round to nearest even, no fused multiply-add; std::sqrt correctly rounded (dbl_sqrt) for the standard deviation."
  },
  {
   "property": "C96",
   "status": "proved",
   "theorems": [
    "C96_file"
   ],
   "note": "print of Python 2; \"%f\" and str() are parameters giving texts without white space; the readability part assumes they give numerals for the numbers in the file (true of finite ones)."
  }
 ]
}