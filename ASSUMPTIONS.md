# Output of Print Assumptions

Generated by `tools/gen_assumptions.py`.

| theorem | file | axioms |
|---|---|---|
| C01_every_cell_once | MaiProps.v | none |
| C01_visits_nested_loops | MaiProps.v | none |
| C02_flat_index_is_position | MaiProps.v | none |
| C02_flat_to_indices_to_flat | MaiProps.v | none |
| C02_indices_to_flat_to_indices | MaiProps.v | none |
| C02_int_instance_agrees | MaiProps.v | none |
| C03_any_history | MaiProps.v | none |
| C03_begin_restarts | MaiProps.v | none |
| C03_past_end_wraps | MaiProps.v | none |
| C04_no_axes_empty_product_refuted | MaiProps.v | none |
| C04_no_axes_undefined | MaiProps.v | none |
| C04_zero_extent_empty_loop | MaiProps.v | none |
| C04_zero_extent_getIndices_undefined | MaiProps.v | none |
| C05_build_iff_decomposition_exists | CdProps.v | none |
| C06_decomposition_valid | CdProps.v | none |
| C06_four_billion | BestProps.v | none |
| C06_modulo | BestProps.v | none |
| C06_unbounded_refuted | CdProps.v | none |
| C07_tiling | CdProps.v | none |
| C08_load_balance | CdProps.v | none |
| C09_periodic_neighbour | CdProps.v | none |
| C10_exact | NeighbourProps.v | none |
| C10_neighbour_iff | NeighbourProps.v | none |
| C10_valid_iff | NeighbourProps.v | none |
| C10_valid_rank_partial | CdProps.v | none |
| C10_valid_rank_refuted | CdProps.v | none |
| C11_neighbour_injective | CdProps.v | none |
| C11_neighbour_symmetric | CdProps.v | none |
| C12_history_independent | CdProps.v | none |
| C13_exact | BestProps.v | ClassicalDedekindReals.sig_not_dec, ClassicalDedekindReals.sig_forall_dec, FunctionalExtensionality.functional_extensionality_dep, Classical_Prop.classic |
| C13_one_cell_axis | BestProps.v | ClassicalDedekindReals.sig_not_dec, ClassicalDedekindReals.sig_forall_dec, FunctionalExtensionality.functional_extensionality_dep, Classical_Prop.classic |
| C13_optimal_but_one_partial | CdProps.v | ClassicalDedekindReals.sig_not_dec, ClassicalDedekindReals.sig_forall_dec, FunctionalExtensionality.functional_extensionality_dep, Classical_Prop.classic |
| C13_optimal_iff | BestProps.v | ClassicalDedekindReals.sig_not_dec, ClassicalDedekindReals.sig_forall_dec, FunctionalExtensionality.functional_extensionality_dep, Classical_Prop.classic |
| C13_optimal_refuted | CdProps.v | none |
| C14_cubic_optimal | CdProps.v | ClassicalDedekindReals.sig_not_dec, ClassicalDedekindReals.sig_forall_dec, FunctionalExtensionality.functional_extensionality_dep, Classical_Prop.classic |
| C15_divisors | CdProps.v | none |
| C16_constructor_hides_failure | CdProps.v | none |
| C16_failed_build_unusable | CdProps.v | none |
| C17_accepts_iff_registered | CmdProps.v | none |
| C17_defined | CmdProps.v | none |
| C18_rejected_changes_nothing | CmdProps.v | none |
| C19_cases | CmdProps.v | none |
| C19_last_value_wins | CmdProps.v | none |
| C19_no_value_keeps_previous | CmdProps.v | none |
| C20_flag_parity | CmdProps.v | none |
| C21_stray_ignored | CmdProps.v | none |
| C21_unmentioned_unchanged | CmdProps.v | none |
| C22_default_until_parse | CmdProps.v | none |
| C22_unknown_gives_sentinel | CmdProps.v | none |
| C23_negative_number_accepted | CmdProps.v | none |
| C23_negative_number_is_a_value | CmdProps.v | none |
| C23_no_leading_digit_rejected | CmdProps.v | none |
| C24_int_accepted | CmdProps.v | none |
| C24_int_read_exactly | CmdProps.v | none |
| C24_out_of_range_undefined | CmdProps.v | none |
| C25_help_complete | CmdProps.v | none |
| C26_constructor | FilterProps.v | none |
| C26_storage_tiles | FilterProps.v | none |
| C27_border_is_what_is_read | FilterProps.v | none |
| C27_set_by_indices | FilterProps.v | none |
| C27_set_by_position | FilterProps.v | none |
| C28_parallel_equals_serial | FilterProps.v | none |
| C28_programs | FilterProps.v | none |
| C28_undivided_axes | FilterProps.v | none |
| C29_process_count_independent | FilterProps.v | none |
| C30_iterates | FilterProps.v | none |
| C31_default_size_refuted | FilterProps.v | none |
| C31_periodic_iff | FilterProps.v | none |
| C31_periodic_refuted | FilterProps.v | none |
| C31_serial_semantics | FilterProps.v | none |
| C32_check_sum | FilterProps.v | none |
| C32_weights_times_input | FilterProps.v | none |
| C33_copyOutToIn | FilterProps.v | none |
| C34_nonroot_front_refuted | FilterProps.v | none |
| C34_print | FilterProps.v | none |
| C34_saveVTK_reassembles | FilterProps.v | none |
| C35_any_reach_refuted | FilterProps.v | none |
| C35_axis_stencils | ReachProps.v | none |
| C35_exactly_unit | DiagProps.v | none |
| C35_long_diagonal | DiagProps.v | none |
| C35_overshoot | DiagProps.v | none |
| C35_shared_side_refuted | FilterProps.v | none |
| C35_two_or_more_cells | ReachProps.v | none |
| C36_every_schedule | MpiSchedProps.v | none |
| C36_fields | MpiSchedProps.v | none |
| C36_no_deadlock | MpiSchedProps.v | none |
| C36_reads_between_fences | MpiSchedProps.v | none |
| C36_terminates | MpiSchedProps.v | none |
| C37_all_released_once | FilterProps.v | none |
| C37_shared_side_refuted | FilterProps.v | none |
| C38_invalid_decomposition_unusable | FilterProps.v | none |
| C38_testStencil2d_undefined | LapProps.v | none |
| C39_constants | LapProps.v | none |
| C39_driver_check_sums | LapProps.v | none |
| C39_driver_field | LapProps.v | none |
| C39_driver_invalid | LapProps.v | none |
| C39_stencil_is_laplacian | LapProps.v | none |
| C39_zero_check_sum | LapProps.v | none |
| C40_cell_centres | LapProps.v | ClassicalDedekindReals.sig_forall_dec, FunctionalExtensionality.functional_extensionality_dep |
| C40_spacing_and_symmetry | LapProps.v | ClassicalDedekindReals.sig_forall_dec, FunctionalExtensionality.functional_extensionality_dep |
| C41_distinct | UpProps.v | none |
| C41_flat_of_index_set | UpProps.v | none |
| C41_index_set_of_flat | UpProps.v | none |
| C42_advect | UpProps.v | none |
| C42_constructor | UpProps.v | none |
| C42_driver | UpMpiProps.v | none |
| C42_every_field | UpProps.v | none |
| C42_one_step | UpProps.v | none |
| C43_conservation | UpProps.v | none |
| C44_maximum_principle | UpProps.v | ClassicalDedekindReals.sig_forall_dec, FunctionalExtensionality.functional_extensionality_dep |
| C45_spread | UpProps.v | ClassicalDedekindReals.sig_not_dec, ClassicalDedekindReals.sig_forall_dec, FunctionalExtensionality.functional_extensionality_dep |
| C46_completes | ParProps.v | none |
| C46_every_schedule | ParProps.v | none |
| C46_field | ParProps.v | none |
| C47_idle_teams | TeamProps.v | none |
| C47_one_team_partial | ParProps.v | none |
| C47_race_free_iff | TeamProps.v | none |
| C47_race_refuted | ParProps.v | none |
| C47_result_refuted | ParProps.v | none |
| C47_single_step | TeamProps.v | none |
| C48_constructor | AccProps.v | none |
| C48_doubles_refuted | AccProps.v | none |
| C48_driver_field | DblProps.v | none |
| C48_drivers | AccProps.v | ClassicalDedekindReals.sig_not_dec, ClassicalDedekindReals.sig_forall_dec, FunctionalExtensionality.functional_extensionality_dep |
| C48_formula | AccProps.v | none |
| C48_reals | AccProps.v | ClassicalDedekindReals.sig_forall_dec, FunctionalExtensionality.functional_extensionality_dep |
| C48_same_as_upwind | AccProps.v | none |
| C48_same_output | AccProps.v | none |
| C48_versions_agree | AccProps.v | none |
| C49_doubles_refuted | UpMpiProps.v | none |
| C49_driver_field | UpMpiProps.v | none |
| C49_driver_invalid | UpMpiProps.v | none |
| C49_other_sizes_refuted | UpMpiProps.v | none |
| C49_same_as_upwind | UpMpiProps.v | ClassicalDedekindReals.sig_not_dec, ClassicalDedekindReals.sig_forall_dec, FunctionalExtensionality.functional_extensionality_dep |
| C49_stencil_is_upwind | UpMpiProps.v | ClassicalDedekindReals.sig_forall_dec, FunctionalExtensionality.functional_extensionality_dep |
| C50_all_cells_partial | UpProps.v | none |
| C50_all_cells_refuted | UpProps.v | ClassicalDedekindReals.sig_forall_dec, FunctionalExtensionality.functional_extensionality_dep |
| C50_driver_last_cell | LimitProps.v | none |
| C50_exactly | LimitProps.v | ClassicalDedekindReals.sig_forall_dec, FunctionalExtensionality.functional_extensionality_dep |
| C50_truncated_loop | UpProps.v | none |
| C50_untouched | LimitProps.v | none |
| C51_compose | UpProps.v | none |
| C51_no_steps | UpProps.v | none |
| C52_vtk | UpProps.v | none |
| C53_cell_value | VtkProps.v | none |
| C53_centres | VtkProps.v | ClassicalDedekindReals.sig_forall_dec, FunctionalExtensionality.functional_extensionality_dep |
| C53_corners | VtkProps.v | ClassicalDedekindReals.sig_forall_dec, FunctionalExtensionality.functional_extensionality_dep |
| C53_file | VtkProps.v | none |
| C53_more_axes | VtkProps.v | none |
| C53_point | VtkProps.v | none |
| C53_short_field | VtkProps.v | none |
| C54_driver | UpProps.v | ClassicalDedekindReals.sig_not_dec, ClassicalDedekindReals.sig_forall_dec, FunctionalExtensionality.functional_extensionality_dep |
| C55_constant | UpProps.v | none |
| C56_eigenfunction | LapProps.v | ClassicalDedekindReals.sig_not_dec, ClassicalDedekindReals.sig_forall_dec, FunctionalExtensionality.functional_extensionality_dep |
| C57_testStencil2d | LapProps.v | none |
| C58_exactly | UpLongProps.v | ClassicalDedekindReals.sig_forall_dec, FunctionalExtensionality.functional_extensionality_dep |
| C58_harmless_axes | UpLongProps.v | none |
| C58_long_axis_refuted | UpProps.v | ClassicalDedekindReals.sig_forall_dec, FunctionalExtensionality.functional_extensionality_dep |
| C59_negative_cells | UpProps.v | none |
| C59_zero_cells | UpProps.v | none |
| C60_fewer_axes | AccProps.v | none |
| C60_long_axis_refuted | AccProps.v | ClassicalDedekindReals.sig_forall_dec, FunctionalExtensionality.functional_extensionality_dep |
| C61_kernel | ParProps.v | none |
| C61_time_steps | ParProps.v | none |
| C62_laplacian | DrvProps.v | none |
| C62_testStencil2d | DrvProps.v | none |
| C62_upwind | DrvProps.v | none |
| C62_upwindAcc | DrvProps.v | none |
| C62_upwindMpi | DrvProps.v | none |
| C62_upwind_check_sum | DrvProps.v | ClassicalDedekindReals.sig_not_dec, ClassicalDedekindReals.sig_forall_dec, FunctionalExtensionality.functional_extensionality_dep |
| C63_testCubeDecomp | DrvProps.v | none |
| C63_testCubeDecomp_no_layout | DrvProps.v | none |
| C63_testMultiArrayIter | DrvProps.v | none |
| C64_upwind | DblProps.v | ClassicalDedekindReals.sig_not_dec, ClassicalDedekindReals.sig_forall_dec, FunctionalExtensionality.functional_extensionality_dep, Classical_Prop.classic |
| C64_upwindAcc | DblProps.v | ClassicalDedekindReals.sig_not_dec, ClassicalDedekindReals.sig_forall_dec, FunctionalExtensionality.functional_extensionality_dep, Classical_Prop.classic |
| C64_upwindAcc_driver | DblProps.v | ClassicalDedekindReals.sig_not_dec, ClassicalDedekindReals.sig_forall_dec, FunctionalExtensionality.functional_extensionality_dep, Classical_Prop.classic |
| C64_upwind_driver | DblProps.v | ClassicalDedekindReals.sig_not_dec, ClassicalDedekindReals.sig_forall_dec, FunctionalExtensionality.functional_extensionality_dep, Classical_Prop.classic |
| C65_exact_refuted | DblProps.v | ClassicalDedekindReals.sig_forall_dec, FunctionalExtensionality.functional_extensionality_dep |
| C65_six_decimals | DblProps.v | ClassicalDedekindReals.sig_not_dec, ClassicalDedekindReals.sig_forall_dec, FunctionalExtensionality.functional_extensionality_dep, Classical_Prop.classic |
| C65_upwindAcc_driver | DblProps.v | ClassicalDedekindReals.sig_not_dec, ClassicalDedekindReals.sig_forall_dec, FunctionalExtensionality.functional_extensionality_dep, Classical_Prop.classic |
| C65_upwind_driver | DblProps.v | ClassicalDedekindReals.sig_not_dec, ClassicalDedekindReals.sig_forall_dec, FunctionalExtensionality.functional_extensionality_dep, Classical_Prop.classic |
| C65_upwind_program | DblProps.v | ClassicalDedekindReals.sig_not_dec, ClassicalDedekindReals.sig_forall_dec, FunctionalExtensionality.functional_extensionality_dep, Classical_Prop.classic |
| C66_error | NumProps.v | ClassicalDedekindReals.sig_not_dec, ClassicalDedekindReals.sig_forall_dec, FunctionalExtensionality.functional_extensionality_dep, Classical_Prop.classic |
| C66_integer | NumProps.v | none |
| C66_lossless_refuted | NumProps.v | ClassicalDedekindReals.sig_forall_dec, FunctionalExtensionality.functional_extensionality_dep |
| C66_not_finite | NumProps.v | none |
| C66_order | NumProps.v | ClassicalDedekindReals.sig_not_dec, ClassicalDedekindReals.sig_forall_dec, FunctionalExtensionality.functional_extensionality_dep, Classical_Prop.classic |
| C66_printed_value | NumProps.v | ClassicalDedekindReals.sig_not_dec, ClassicalDedekindReals.sig_forall_dec, FunctionalExtensionality.functional_extensionality_dep, Classical_Prop.classic |
| C66_same_text | NumProps.v | ClassicalDedekindReals.sig_not_dec, ClassicalDedekindReals.sig_forall_dec, FunctionalExtensionality.functional_extensionality_dep, Classical_Prop.classic |
| C66_small_integer | NumProps.v | ClassicalDedekindReals.sig_not_dec, ClassicalDedekindReals.sig_forall_dec, FunctionalExtensionality.functional_extensionality_dep, Classical_Prop.classic |
| C67_bare_numbers | TextProps.v | none |
| C67_cases | TextProps.v | none |
| C67_pattern_refuted | TextProps.v | none |
| C67_tests_pass | TextProps.v | ClassicalDedekindReals.sig_not_dec, ClassicalDedekindReals.sig_forall_dec, FunctionalExtensionality.functional_extensionality_dep, Classical_Prop.classic |
| C67_upwind | TextProps.v | none |
| C67_upwindAcc | TextProps.v | none |
| C67_upwindAcc_report | TextProps.v | ClassicalDedekindReals.sig_not_dec, ClassicalDedekindReals.sig_forall_dec, FunctionalExtensionality.functional_extensionality_dep, Classical_Prop.classic |
| C67_upwind_report | TextProps.v | ClassicalDedekindReals.sig_not_dec, ClassicalDedekindReals.sig_forall_dec, FunctionalExtensionality.functional_extensionality_dep, Classical_Prop.classic |
| C68_saveVTK | FileProps.v | ClassicalDedekindReals.sig_not_dec, ClassicalDedekindReals.sig_forall_dec, FunctionalExtensionality.functional_extensionality_dep, Classical_Prop.classic |
| C68_upwind | FileProps.v | ClassicalDedekindReals.sig_not_dec, ClassicalDedekindReals.sig_forall_dec, FunctionalExtensionality.functional_extensionality_dep, Classical_Prop.classic |
| C68_upwindAcc | FileProps.v | ClassicalDedekindReals.sig_not_dec, ClassicalDedekindReals.sig_forall_dec, FunctionalExtensionality.functional_extensionality_dep, Classical_Prop.classic |
| C68_writeVTK | FileProps.v | ClassicalDedekindReals.sig_not_dec, ClassicalDedekindReals.sig_forall_dec, FunctionalExtensionality.functional_extensionality_dep, Classical_Prop.classic |
| C68_writeVTK_more | FileProps.v | none |
| C69_exact_refuted | UmDblProps.v | ClassicalDedekindReals.sig_forall_dec, FunctionalExtensionality.functional_extensionality_dep |
| C69_order_refuted | UmDblProps.v | none |
| C69_upwindMpi | UmDblProps.v | ClassicalDedekindReals.sig_not_dec, ClassicalDedekindReals.sig_forall_dec, FunctionalExtensionality.functional_extensionality_dep, Classical_Prop.classic |
| C70_laplacian_help | MpiTextProps.v | none |
| C70_laplacian_run | MpiTextProps.v | none |
| C70_laplacian_test | MpiReportProps.v | none |
| C70_testStencil2d_help | MpiTextProps.v | none |
| C70_testStencil2d_run | MpiTextProps.v | none |
| C70_upwindMpi_file | MpiReportProps.v | ClassicalDedekindReals.sig_not_dec, ClassicalDedekindReals.sig_forall_dec, FunctionalExtensionality.functional_extensionality_dep, Classical_Prop.classic |
| C70_upwindMpi_help | MpiTextProps.v | none |
| C70_upwindMpi_report | MpiReportProps.v | ClassicalDedekindReals.sig_not_dec, ClassicalDedekindReals.sig_forall_dec, FunctionalExtensionality.functional_extensionality_dep, Classical_Prop.classic |
| C70_upwindMpi_run | MpiTextProps.v | none |
| C71_apply | WrapProps.v | none |
| C71_axis_stencils | WrapProps.v | none |
| C71_laplacian | WrapProps.v | none |
| C71_laplacian_default | WrapProps.v | none |
| C71_laplacian_default_serial_refuted | WrapProps.v | ClassicalDedekindReals.sig_not_dec, ClassicalDedekindReals.sig_forall_dec, FunctionalExtensionality.functional_extensionality_dep |
| C71_periodic_iff | WrapProps.v | none |
| C71_programs | WrapProps.v | none |
| C71_steps_to_the_right | WrapProps.v | none |
| C71_testStencil2d | WrapProps.v | none |
| C71_upwindMpi | WrapProps.v | none |
| C72_file_strict_refuted | MpiMainProps.v | none |
| C72_laplacian | MpiMainProps.v | none |
| C72_laplacian_calls | MpiMainProps.v | none |
| C72_laplacian_run | MpiMainProps.v | none |
| C72_testStencil2d | MpiMainProps.v | none |
| C72_testStencil2d_calls | MpiMainProps.v | none |
| C72_testStencil2d_run | MpiMainProps.v | none |
| C72_upwindMpi | MpiMainProps.v | none |
| C72_upwindMpi_calls | MpiMainProps.v | none |
| C72_upwindMpi_run | MpiMainProps.v | none |
| C73_leak | LeakProps.v | none |
| C73_no_leak_iff | LeakProps.v | none |
| C74_advect | FortProps.v | none |
| C74_constructor | FortProps.v | none |
| C74_constructor_iff | FortProps.v | none |
| C74_doubles_refuted | FortProps.v | none |
| C74_driver | FortProps.v | ClassicalDedekindReals.sig_not_dec, ClassicalDedekindReals.sig_forall_dec, FunctionalExtensionality.functional_extensionality_dep |
| C74_every_schedule | FortProps.v | none |
| C74_gpu_schedule | FortProps.v | none |
| C74_long_axis | FortProps.v | none |
| C74_main_iff | FortProps.v | none |
| C74_reals | FortProps.v | ClassicalDedekindReals.sig_forall_dec, FunctionalExtensionality.functional_extensionality_dep |
| C74_same_as_cxx | FortProps.v | none |
| C75_against_cxx | FortProps.v | none |
| C75_cube | FortProps.v | none |
| C75_fits_iff | FortProps.v | none |
| C76_advect | PyProps.v | none |
| C76_body_iff | PyProps.v | none |
| C76_check_sum | PyProps.v | ClassicalDedekindReals.sig_not_dec, ClassicalDedekindReals.sig_forall_dec, FunctionalExtensionality.functional_extensionality_dep, Classical_Prop.classic |
| C76_constructor | PyProps.v | none |
| C76_doubles_same_as_acc | PyProps.v | ClassicalDedekindReals.sig_not_dec, ClassicalDedekindReals.sig_forall_dec, FunctionalExtensionality.functional_extensionality_dep, Classical_Prop.classic |
| C76_driver | PyProps.v | ClassicalDedekindReals.sig_not_dec, ClassicalDedekindReals.sig_forall_dec, FunctionalExtensionality.functional_extensionality_dep |
| C76_index_table_refuted | PyProps.v | ClassicalDedekindReals.sig_forall_dec, FunctionalExtensionality.functional_extensionality_dep |
| C76_program | PyProps.v | ClassicalDedekindReals.sig_not_dec, ClassicalDedekindReals.sig_forall_dec, FunctionalExtensionality.functional_extensionality_dep, Classical_Prop.classic |
| C76_same_as_acc | PyProps.v | none |
| C76_same_as_cxx | PyProps.v | none |
| C76_usage | PyProps.v | none |
| C77_one_cell | PyProps.v | none |
| C77_program | PyProps.v | none |
| C77_unreadable | PyProps.v | none |
| C77_words | PyProps.v | none |
| C78_advect | JlProps.v | none |
| C78_advect3 | JlProps.v | none |
| C78_body_iff | JlProps.v | none |
| C78_check_sum | JlProps.v | ClassicalDedekindReals.sig_not_dec, ClassicalDedekindReals.sig_forall_dec, FunctionalExtensionality.functional_extensionality_dep, Classical_Prop.classic |
| C78_constructor | JlProps.v | none |
| C78_doubles_same_as_cxx | JlProps.v | ClassicalDedekindReals.sig_not_dec, ClassicalDedekindReals.sig_forall_dec, FunctionalExtensionality.functional_extensionality_dep, Classical_Prop.classic |
| C78_driver | JlProps.v | ClassicalDedekindReals.sig_not_dec, ClassicalDedekindReals.sig_forall_dec, FunctionalExtensionality.functional_extensionality_dep |
| C78_global_refuted | JlProps.v | none |
| C78_index_functions | JlProps.v | none |
| C78_one_call | JlProps.v | none |
| C78_program | JlProps.v | ClassicalDedekindReals.sig_not_dec, ClassicalDedekindReals.sig_forall_dec, FunctionalExtensionality.functional_extensionality_dep, Classical_Prop.classic |
| C78_program3 | JlProps.v | ClassicalDedekindReals.sig_not_dec, ClassicalDedekindReals.sig_forall_dec, FunctionalExtensionality.functional_extensionality_dep, Classical_Prop.classic |
| C78_same_as_cxx | JlProps.v | none |
| C78_same_values | JlProps.v | none |
| C78_usage | JlProps.v | none |
| C78_versions_agree | JlProps.v | none |
| C79_cells | JlProps.v | none |
| C79_never_written | JlProps.v | none |
| C79_read_back | JlProps.v | none |
| C80_every_schedule | MmProps.v | none |
| C80_exact | MmProps.v | ClassicalDedekindReals.sig_not_dec, ClassicalDedekindReals.sig_forall_dec, FunctionalExtensionality.functional_extensionality_dep, Classical_Prop.classic |
| C80_in_order | MmProps.v | none |
| C80_initmat | MmProps.v | none |
| C80_product | MmProps.v | none |
| C80_program | MmProps.v | ClassicalDedekindReals.sig_not_dec, ClassicalDedekindReals.sig_forall_dec, FunctionalExtensionality.functional_extensionality_dep, Classical_Prop.classic |
| C80_read_error | MmProps.v | none |
| C80_real_product | MmProps.v | ClassicalDedekindReals.sig_forall_dec, FunctionalExtensionality.functional_extensionality_dep |
| C80_sizes_refuted | MmProps.v | none |
| C81_benchmark | LapDblProps.v | ClassicalDedekindReals.sig_not_dec, ClassicalDedekindReals.sig_forall_dec, FunctionalExtensionality.functional_extensionality_dep, Classical_Prop.classic |
| C81_constants | LapDblProps.v | ClassicalDedekindReals.sig_not_dec, ClassicalDedekindReals.sig_forall_dec, FunctionalExtensionality.functional_extensionality_dep, Classical_Prop.classic |
| C81_constants_3d_refuted | LapDblProps.v | ClassicalDedekindReals.sig_forall_dec, FunctionalExtensionality.functional_extensionality_dep |
| C81_eigenfunction | LapDblProps.v | ClassicalDedekindReals.sig_not_dec, ClassicalDedekindReals.sig_forall_dec, FunctionalExtensionality.functional_extensionality_dep, Classical_Prop.classic |
| C81_sine | LapSineProps.v | ClassicalDedekindReals.sig_not_dec, ClassicalDedekindReals.sig_forall_dec, FunctionalExtensionality.functional_extensionality_dep, Classical_Prop.classic |
| C82_carried_solves | ConvProps.v | ClassicalDedekindReals.sig_forall_dec, FunctionalExtensionality.functional_extensionality_dep |
| C82_converges | ConvProps.v | ClassicalDedekindReals.sig_forall_dec, FunctionalExtensionality.functional_extensionality_dep |
| C82_error | ConvProps.v | ClassicalDedekindReals.sig_forall_dec, FunctionalExtensionality.functional_extensionality_dep |
| C82_first_order | ConvProps.v | ClassicalDedekindReals.sig_forall_dec, FunctionalExtensionality.functional_extensionality_dep |
| C82_unit_courant | ConvProps.v | ClassicalDedekindReals.sig_forall_dec, FunctionalExtensionality.functional_extensionality_dep |
| C83_dependence | WalkProps.v | none |
| C83_driver | WalkProps.v | ClassicalDedekindReals.sig_not_dec, ClassicalDedekindReals.sig_forall_dec, FunctionalExtensionality.functional_extensionality_dep, Classical_Prop.classic |
| C83_untouched | WalkProps.v | none |
| C84_corner | WalkSumProps.v | ClassicalDedekindReals.sig_forall_dec, FunctionalExtensionality.functional_extensionality_dep |
| C84_driver | WalkSumProps.v | ClassicalDedekindReals.sig_not_dec, ClassicalDedekindReals.sig_forall_dec, FunctionalExtensionality.functional_extensionality_dep |
| C84_walk | WalkSumProps.v | ClassicalDedekindReals.sig_forall_dec, FunctionalExtensionality.functional_extensionality_dep |
| C85_body | PyMpiProps.v | none |
| C85_constructor | PyMpiProps.v | none |
| C85_decompositions_refuted | PyMpiProps.v | none |
| C85_driver | PyMpiProps.v | ClassicalDedekindReals.sig_not_dec, ClassicalDedekindReals.sig_forall_dec, FunctionalExtensionality.functional_extensionality_dep |
| C85_exactly | PyMpiProps.v | ClassicalDedekindReals.sig_forall_dec, FunctionalExtensionality.functional_extensionality_dep |
| C85_file | PyMpiProps.v | none |
| C85_formula | PyMpiProps.v | none |
| C85_gather | PyMpiProps.v | none |
| C85_negative_refuted | PyMpiProps.v | ClassicalDedekindReals.sig_forall_dec, FunctionalExtensionality.functional_extensionality_dep |
| C85_no_decomposition | PyMpiProps.v | none |
| C85_program | PyMpiProps.v | ClassicalDedekindReals.sig_not_dec, ClassicalDedekindReals.sig_forall_dec, FunctionalExtensionality.functional_extensionality_dep |
| C85_right | PyMpiProps.v | ClassicalDedekindReals.sig_forall_dec, FunctionalExtensionality.functional_extensionality_dep |
| C85_usage | PyMpiProps.v | none |
| C86_check_sum | PyMpiDblProps.v | ClassicalDedekindReals.sig_not_dec, ClassicalDedekindReals.sig_forall_dec, FunctionalExtensionality.functional_extensionality_dep, Classical_Prop.classic |
| C86_program | PyMpiDblProps.v | ClassicalDedekindReals.sig_not_dec, ClassicalDedekindReals.sig_forall_dec, FunctionalExtensionality.functional_extensionality_dep, Classical_Prop.classic |
| C86_uniform_refuted | PyMpiDblProps.v | ClassicalDedekindReals.sig_forall_dec, FunctionalExtensionality.functional_extensionality_dep |
| C87_field | FortDblProps.v | ClassicalDedekindReals.sig_not_dec, ClassicalDedekindReals.sig_forall_dec, FunctionalExtensionality.functional_extensionality_dep, Classical_Prop.classic |
| C87_no_argument | FortDblProps.v | none |
| C87_program | FortDblProps.v | ClassicalDedekindReals.sig_not_dec, ClassicalDedekindReals.sig_forall_dec, FunctionalExtensionality.functional_extensionality_dep, Classical_Prop.classic |
| C88_dims_refuted | FortFileProps.v | none |
| C88_hundred_steps | FortFileProps.v | ClassicalDedekindReals.sig_not_dec, ClassicalDedekindReals.sig_forall_dec, FunctionalExtensionality.functional_extensionality_dep, Classical_Prop.classic |
| C88_unreadable | FortFileProps.v | ClassicalDedekindReals.sig_not_dec, ClassicalDedekindReals.sig_forall_dec, FunctionalExtensionality.functional_extensionality_dep, Classical_Prop.classic |
| C89_any | FortThreadProps.v | none |
| C89_gpu | FortThreadProps.v | none |
| C89_one_thread | FortThreadProps.v | none |
| C89_private | FortThreadProps.v | none |
| C89_repeated_refuted | FortThreadProps.v | none |
| C89_silent_refuted | FortThreadProps.v | none |
| C89_wrong_number_refuted | FortThreadProps.v | none |
| C90_advect | CyProps.v | none |
| C90_check_sum | CyProps.v | ClassicalDedekindReals.sig_not_dec, ClassicalDedekindReals.sig_forall_dec, FunctionalExtensionality.functional_extensionality_dep, Classical_Prop.classic |
| C90_constructor | CyProps.v | none |
| C90_same_as_python | CyProps.v | none |
| C90_too_many | CyProps.v | none |
| C91_print | CyProps.v | none |
| C91_printOut | CyProps.v | none |
| C92_even_axes | StabProps.v | ClassicalDedekindReals.sig_not_dec, ClassicalDedekindReals.sig_forall_dec, FunctionalExtensionality.functional_extensionality_dep |
| C92_first_step | StabProps.v | ClassicalDedekindReals.sig_forall_dec, FunctionalExtensionality.functional_extensionality_dep |
| C92_growth | StabProps.v | ClassicalDedekindReals.sig_not_dec, ClassicalDedekindReals.sig_forall_dec, FunctionalExtensionality.functional_extensionality_dep |
| C92_maximum_principle_iff | StabProps.v | ClassicalDedekindReals.sig_forall_dec, FunctionalExtensionality.functional_extensionality_dep |
| C92_modes | StabProps.v | ClassicalDedekindReals.sig_not_dec, ClassicalDedekindReals.sig_forall_dec, FunctionalExtensionality.functional_extensionality_dep |
| C92_one_axis | StabProps.v | ClassicalDedekindReals.sig_not_dec, ClassicalDedekindReals.sig_forall_dec, FunctionalExtensionality.functional_extensionality_dep |
| C92_unbounded | StabProps.v | ClassicalDedekindReals.sig_not_dec, ClassicalDedekindReals.sig_forall_dec, FunctionalExtensionality.functional_extensionality_dep |
| C93_as_many_steps_refuted | MomentProps.v | ClassicalDedekindReals.sig_forall_dec, FunctionalExtensionality.functional_extensionality_dep |
| C93_covariance | MomentProps.v | ClassicalDedekindReals.sig_forall_dec, FunctionalExtensionality.functional_extensionality_dep |
| C93_marginal | MomentProps.v | ClassicalDedekindReals.sig_forall_dec, FunctionalExtensionality.functional_extensionality_dep |
| C93_mean | MomentProps.v | ClassicalDedekindReals.sig_forall_dec, FunctionalExtensionality.functional_extensionality_dep |
| C93_variance | MomentProps.v | ClassicalDedekindReals.sig_forall_dec, FunctionalExtensionality.functional_extensionality_dep |
| C94_bounded_beyond_the_limit | FourierProps.v | ClassicalDedekindReals.sig_not_dec, ClassicalDedekindReals.sig_forall_dec, FunctionalExtensionality.functional_extensionality_dep |
| C94_bounded_every_start | FourierProps.v | ClassicalDedekindReals.sig_not_dec, ClassicalDedekindReals.sig_forall_dec, FunctionalExtensionality.functional_extensionality_dep |
| C94_bounded_iff | FourierProps.v | ClassicalDedekindReals.sig_not_dec, ClassicalDedekindReals.sig_forall_dec, FunctionalExtensionality.functional_extensionality_dep |
| C94_limit | FourierProps.v | ClassicalDedekindReals.sig_not_dec, ClassicalDedekindReals.sig_forall_dec, FunctionalExtensionality.functional_extensionality_dep |
| C94_program | FourierProps.v | ClassicalDedekindReals.sig_not_dec, ClassicalDedekindReals.sig_forall_dec, FunctionalExtensionality.functional_extensionality_dep |
| C94_std | FourierProps.v | ClassicalDedekindReals.sig_not_dec, ClassicalDedekindReals.sig_forall_dec, FunctionalExtensionality.functional_extensionality_dep |
| C94_sum_of_squares | FourierProps.v | ClassicalDedekindReals.sig_not_dec, ClassicalDedekindReals.sig_forall_dec, FunctionalExtensionality.functional_extensionality_dep |
| C95_cython | FortRoundProps.v | ClassicalDedekindReals.sig_not_dec, ClassicalDedekindReals.sig_forall_dec, FunctionalExtensionality.functional_extensionality_dep, Classical_Prop.classic |
| C95_each_cell | RoundProps.v | ClassicalDedekindReals.sig_not_dec, ClassicalDedekindReals.sig_forall_dec, FunctionalExtensionality.functional_extensionality_dep, Classical_Prop.classic |
| C95_fortran | FortRoundProps.v | ClassicalDedekindReals.sig_not_dec, ClassicalDedekindReals.sig_forall_dec, FunctionalExtensionality.functional_extensionality_dep, Classical_Prop.classic |
| C95_julia | RoundOtherProps.v | ClassicalDedekindReals.sig_not_dec, ClassicalDedekindReals.sig_forall_dec, FunctionalExtensionality.functional_extensionality_dep, Classical_Prop.classic |
| C95_multinomial | RoundProps.v | ClassicalDedekindReals.sig_not_dec, ClassicalDedekindReals.sig_forall_dec, FunctionalExtensionality.functional_extensionality_dep, Classical_Prop.classic |
| C95_processes_agree | PyMpiRoundProps.v | ClassicalDedekindReals.sig_not_dec, ClassicalDedekindReals.sig_forall_dec, FunctionalExtensionality.functional_extensionality_dep, Classical_Prop.classic |
| C95_python | RoundOtherProps.v | ClassicalDedekindReals.sig_not_dec, ClassicalDedekindReals.sig_forall_dec, FunctionalExtensionality.functional_extensionality_dep, Classical_Prop.classic |
| C95_python_mpi | PyMpiRoundProps.v | ClassicalDedekindReals.sig_not_dec, ClassicalDedekindReals.sig_forall_dec, FunctionalExtensionality.functional_extensionality_dep, Classical_Prop.classic |
| C95_std | RoundProps.v | ClassicalDedekindReals.sig_not_dec, ClassicalDedekindReals.sig_forall_dec, FunctionalExtensionality.functional_extensionality_dep, Classical_Prop.classic |
| C95_std_closed_form | RoundProps.v | ClassicalDedekindReals.sig_not_dec, ClassicalDedekindReals.sig_forall_dec, FunctionalExtensionality.functional_extensionality_dep, Classical_Prop.classic |
| C95_upwind | RoundProps.v | ClassicalDedekindReals.sig_not_dec, ClassicalDedekindReals.sig_forall_dec, FunctionalExtensionality.functional_extensionality_dep, Classical_Prop.classic |
| C95_upwindAcc | RoundProps.v | ClassicalDedekindReals.sig_not_dec, ClassicalDedekindReals.sig_forall_dec, FunctionalExtensionality.functional_extensionality_dep, Classical_Prop.classic |
| C95_upwindMpi | MpiRoundProps.v | ClassicalDedekindReals.sig_not_dec, ClassicalDedekindReals.sig_forall_dec, FunctionalExtensionality.functional_extensionality_dep, Classical_Prop.classic |
| C95_upwindMpi_agrees | MpiRoundProps.v | ClassicalDedekindReals.sig_not_dec, ClassicalDedekindReals.sig_forall_dec, FunctionalExtensionality.functional_extensionality_dep, Classical_Prop.classic |
| C95_versions_agree | FortRoundProps.v | ClassicalDedekindReals.sig_not_dec, ClassicalDedekindReals.sig_forall_dec, FunctionalExtensionality.functional_extensionality_dep, Classical_Prop.classic |
| C96_file | CyFileProps.v | none |
