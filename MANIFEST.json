{
 "claims": [
  {
   "property": "C01",
   "status": "proved",
   "theorems": [
    "C01_naive_product"
   ],
   "note": ""
  },
  {
   "property": "C02",
   "status": "proved",
   "theorems": [
    "C02_naive_transposed_product",
    "C02_naive_transposed_eq"
   ],
   "note": ""
  },
  {
   "property": "C03",
   "status": "proved",
   "theorems": [
    "C03_kernel_block"
   ],
   "note": ""
  },
  {
   "property": "C04",
   "status": "proved",
   "theorems": [
    "C04_kernel_transposed_block"
   ],
   "note": ""
  },
  {
   "property": "C05",
   "status": "proved",
   "theorems": [
    "C05_kernel_transposed_blocked_order",
    "C05_kernel_transposed_blocked_product"
   ],
   "note": ""
  },
  {
   "property": "C06",
   "status": "proved",
   "theorems": [
    "C06_kernel_transposed_blocked_oob_input",
    "C06_kernel_transposed_blocked_oob_result",
    "C06_over_read",
    "C06_over_read_limit"
   ],
   "note": ""
  },
  {
   "property": "C07",
   "status": "proved",
   "theorems": [
    "C07_calculate_submatrix_order",
    "C07_calculate_submatrix_product"
   ],
   "note": ""
  },
  {
   "property": "C08",
   "status": "proved",
   "theorems": [
    "C08_distribute_recursively_order",
    "C08_distribute_recursively_product"
   ],
   "note": ""
  },
  {
   "property": "C09",
   "status": "proved",
   "theorems": [
    "C09_single_order",
    "C09_single_product",
    "C09_single_no_repetitions"
   ],
   "note": ""
  },
  {
   "property": "C10",
   "status": "proved",
   "theorems": [
    "C10_single_block_result_zero"
   ],
   "note": ""
  },
  {
   "property": "C11",
   "status": "proved",
   "theorems": [
    "C11_odd_block_tail_zero",
    "C11_odd_block_contents",
    "C11_odd_block_wrong_refuted"
   ],
   "note": ""
  },
  {
   "property": "C12",
   "status": "proved",
   "theorems": [
    "C12_default_command_line_oob"
   ],
   "note": ""
  },
  {
   "property": "C13",
   "status": "proved",
   "theorems": [
    "C13_schedule_terminates",
    "C13_schedule_no_infinite_loop"
   ],
   "note": ""
  },
  {
   "property": "C14",
   "status": "proved",
   "theorems": [
    "C14_packages_disjoint_inside",
    "C14_packages_disjoint_positions",
    "C14_one_slot_per_locality"
   ],
   "note": ""
  },
  {
   "property": "C15",
   "status": "proved",
   "theorems": [
    "C15_packages_cover",
    "C15_power_of_two"
   ],
   "note": ""
  },
  {
   "property": "C16",
   "status": "proved",
   "theorems": [
    "C16_lost_only_by_odd_split",
    "C16_odd_loses_entry",
    "C16_single_locality_refuted",
    "C16_odd_product_entry_zero",
    "C16_odd_product_refuted"
   ],
   "note": ""
  },
  {
   "property": "C17",
   "status": "proved",
   "theorems": [
    "C17_balance_monotone",
    "C17_exit_reason"
   ],
   "note": ""
  },
  {
   "property": "C18",
   "status": "proved",
   "theorems": [
    "C18_accounting",
    "C18_no_wrap",
    "C18_exact_when_even"
   ],
   "note": ""
  },
  {
   "property": "C19",
   "status": "proved",
   "theorems": [
    "C19_pseudodynamic_any_order",
    "C19_one_locality",
    "C19_pseudodynamic_product",
    "C19_pseudodynamic_power_of_two",
    "C19_pseudodynamic_order",
    "C19_locality_independent"
   ],
   "note": ""
  },
  {
   "property": "C20",
   "status": "proved",
   "theorems": [
    "C20_algorithms_order",
    "C20_algorithms_product"
   ],
   "note": ""
  },
  {
   "property": "C21",
   "status": "proved",
   "theorems": [
    "C21_algorithms_zero_result",
    "C21_algorithms_zero_input",
    "C21_algorithms_partial_blocks"
   ],
   "note": ""
  },
  {
   "property": "C22",
   "status": "proved",
   "theorems": [
    "C22_looped_equals_naive"
   ],
   "note": ""
  },
  {
   "property": "C23",
   "status": "proved",
   "theorems": [
    "C23_looped_zeros"
   ],
   "note": ""
  },
  {
   "property": "C24",
   "status": "proved",
   "theorems": [
    "C24_semi_order",
    "C24_semi_product"
   ],
   "note": ""
  },
  {
   "property": "C25",
   "status": "proved",
   "theorems": [
    "C25_semi_partial_blocks",
    "C25_semi_zero_block",
    "C25_semi_zero_block_small"
   ],
   "note": ""
  },
  {
   "property": "C26",
   "status": "proved",
   "theorems": [
    "C26_combined_order",
    "C26_combined_product",
    "C26_shipped_constants"
   ],
   "note": ""
  },
  {
   "property": "C27",
   "status": "proved",
   "theorems": [
    "C27_combined_repetitions_order",
    "C27_combined_repetitions",
    "C27_combined_not_product"
   ],
   "note": ""
  },
  {
   "property": "C28",
   "status": "proved",
   "theorems": [
    "C28_combined_race",
    "C28_combined_race_shipped",
    "C28_combined_single_block"
   ],
   "note": ""
  },
  {
   "property": "C29",
   "status": "proved",
   "theorems": [
    "C29_kernel_tiled_order",
    "C29_kernel_tiled_product",
    "C29_kernel_tiled_no_repetition",
    "C29_verify_blocking_setup",
    "C29_bad_setup_terminates",
    "C29_any_verified_constants_refuted"
   ],
   "note": ""
  },
  {
   "property": "C30",
   "status": "proved",
   "theorems": [
    "C30_kernel_tiled_ignores_transposed",
    "C30_identity_hides_transposed",
    "C30_kernel_test_ignores_transposed",
    "C30_kernel_test_shipped_ignores_transposed"
   ],
   "note": ""
  },
  {
   "property": "C31",
   "status": "proved",
   "theorems": [
    "C31_kernel_test_order",
    "C31_kernel_test_product",
    "C31_kernel_test_out_of_bounds",
    "C31_kernel_test_misaligned",
    "C31_kernel_test_no_repetition",
    "C31_any_constants_product",
    "C31_any_constants_out_of_bounds"
   ],
   "note": ""
  },
  {
   "property": "C32",
   "status": "proved",
   "theorems": [
    "C32_iterate_indices_exactly_once"
   ],
   "note": ""
  },
  {
   "property": "C33",
   "status": "proved",
   "theorems": [
    "C33_iterate_indices_rounds_up"
   ],
   "note": ""
  },
  {
   "property": "C34",
   "status": "proved",
   "theorems": [
    "C34_dim_index_iterator_enumerates"
   ],
   "note": ""
  },
  {
   "property": "C35",
   "status": "proved",
   "theorems": [
    "C35_loop_nest_lexicographic",
    "C35_loop_nest_zero_step_diverges"
   ],
   "note": ""
  },
  {
   "property": "C36",
   "status": "proved",
   "theorems": [
    "C36_double_ceil_exact",
    "C36_double_zero_block",
    "C36_model_count_is_computed",
    "C36_bound_is_sharp"
   ],
   "note": ""
  },
  {
   "property": "C37",
   "status": "proved",
   "theorems": [
    "C37_make_tiled",
    "C37_places_distinct"
   ],
   "note": ""
  },
  {
   "property": "C38",
   "status": "proved",
   "theorems": [
    "C38_make_tiled_remainder",
    "C38_remainder_ignored",
    "C38_remainder_absent",
    "C38_wrong_dimension"
   ],
   "note": ""
  },
  {
   "property": "C39",
   "status": "proved",
   "theorems": [
    "C39_tile_view"
   ],
   "note": ""
  },
  {
   "property": "C40",
   "status": "proved",
   "theorems": [
    "C40_undo_tiling_never_returns",
    "C40_untiled_equal_strides",
    "C40_untiled_different_strides"
   ],
   "note": ""
  },
  {
   "property": "C41",
   "status": "proved",
   "theorems": [
    "C41_flat_index_value",
    "C41_flat_index_equal_strides",
    "C41_flat_index_different_strides"
   ],
   "note": ""
  },
  {
   "property": "C42",
   "status": "proved",
   "theorems": [
    "C42_transpose_square",
    "C42_transpose_rect",
    "C42_transpose_involutive",
    "C42_transpose_square_involutive"
   ],
   "note": ""
  },
  {
   "property": "C43",
   "status": "proved",
   "theorems": [
    "C43_identity_matrix",
    "C43_identity_product",
    "C43_identity_double"
   ],
   "note": ""
  },
  {
   "property": "C44",
   "status": "proved",
   "theorems": [
    "C44_what_dangles",
    "C44_text_before_destruction"
   ],
   "note": ""
  },
  {
   "property": "C45",
   "status": "proved",
   "theorems": [
    "C45_first_alloc",
    "C45_zero_objects",
    "C45_second_alloc",
    "C45_wrapped_size"
   ],
   "note": ""
  },
  {
   "property": "C46",
   "status": "proved",
   "theorems": [
    "C46_print_matrix_host",
    "C46_print_matrix_wide",
    "C46_print_matrix_tall",
    "C46_print_matrix_wrong_refuted"
   ],
   "note": ""
  },
  {
   "property": "C47",
   "status": "proved",
   "theorems": [
    "C47_check",
    "C47_tolerance",
    "C47_accepted_iff",
    "C47_accepted_is_close",
    "C47_nan_infinite_rejected",
    "C47_identical_accepted",
    "C47_real_reading_refuted",
    "C47_positive_verdict"
   ],
   "note": ""
  },
  {
   "property": "C48",
   "status": "proved",
   "theorems": [
    "C48_dispatch",
    "C48_wrong_flag",
    "C48_unknown_name",
    "C48_help",
    "C48_help_kernel_test",
    "C48_help_kernel_tiled"
   ],
   "note": ""
  },
  {
   "property": "C49",
   "status": "proved",
   "theorems": [
    "C49_orders",
    "C49_rounding_error",
    "C49_variants_agree",
    "C49_check_succeeds"
   ],
   "note": ""
  },
  {
   "property": "C50",
   "status": "proved",
   "theorems": [
    "C50_naive_deterministic",
    "C50_single_deterministic",
    "C50_pseudodynamic_deterministic",
    "C50_algorithms_deterministic",
    "C50_semi_deterministic",
    "C50_looped_deterministic",
    "C50_kernel_tiled_deterministic",
    "C50_kernel_test_deterministic",
    "C50_combined_deterministic"
   ],
   "note": ""
  },
  {
   "property": "C51",
   "status": "proved",
   "theorems": [
    "C51_blocked2_even",
    "C51_blocked2_odd",
    "C51_blocked4_entries",
    "C51_blocked4_other_sizes",
    "C51_blocked4_identity",
    "C51_blocked4_product_refuted"
   ],
   "note": ""
  },
  {
   "property": "C52",
   "status": "proved",
   "theorems": [
    "C52_buffer",
    "C52_fits",
    "C52_never_null",
    "C52_small_sizes_refuted"
   ],
   "note": ""
  },
  {
   "property": "C53",
   "status": "proved",
   "theorems": [
    "C53_looped_zero_block",
    "C53_looped_oob",
    "C53_looped_single_block",
    "C53_looped_truncated_sum"
   ],
   "note": ""
  },
  {
   "property": "C54",
   "status": "proved",
   "theorems": [
    "C54_naive_short_input"
   ],
   "note": ""
  },
  {
   "property": "C55",
   "status": "proved",
   "theorems": [
    "C55_make_tiled_zero_tile"
   ],
   "note": ""
  },
  {
   "property": "C56",
   "status": "proved",
   "theorems": [
    "C56_make_tiled_short_array"
   ],
   "note": ""
  },
  {
   "property": "C57",
   "status": "proved",
   "theorems": [
    "C57_proposal_shipped",
    "C57_proposal_any_constants"
   ],
   "note": ""
  },
  {
   "property": "C58",
   "status": "proved",
   "theorems": [
    "C58_end_to_end",
    "C58_default_command_line",
    "C58_single_no_repetition",
    "C58_combined_repetitions",
    "C58_end_to_end_double"
   ],
   "note": ""
  },
  {
   "property": "C59",
   "status": "proved",
   "theorems": [
    "C59_naive",
    "C59_transposed",
    "C59_naive_zeroed",
    "C59_nonzero_refuted"
   ],
   "note": ""
  },
  {
   "property": "C60",
   "status": "proved",
   "theorems": [
    "C60_counter"
   ],
   "note": ""
  },
  {
   "property": "C61",
   "status": "proved",
   "theorems": [
    "C61_gpu",
    "C61_gpu_exact",
    "C61_gpu_other_sizes",
    "C61_gpu_shipped"
   ],
   "note": ""
  },
  {
   "property": "C62",
   "status": "proved",
   "theorems": [
    "C62_exchanged",
    "C62_exchanged_other_sizes",
    "C62_exchanged_shipped"
   ],
   "note": ""
  },
  {
   "property": "C63",
   "status": "proved",
   "theorems": [
    "C63_intrin",
    "C63_intrin_exact",
    "C63_intrin_shipped",
    "C63_intrin_misaligned",
    "C63_intrin_other_sizes"
   ],
   "note": ""
  },
  {
   "property": "C64",
   "status": "proved",
   "theorems": [
    "C64_register_fma",
    "C64_register_fma_shipped",
    "C64_register_no_fma",
    "C64_register_no_fma_shipped",
    "C64_register_no_fma_product_refuted",
    "C64_register_misaligned",
    "C64_register_other_sizes"
   ],
   "note": ""
  },
  {
   "property": "C65",
   "status": "proved",
   "theorems": [
    "C65_asm",
    "C65_asm_exact",
    "C65_asm_unsupported",
    "C65_asm_misaligned",
    "C65_asm_other_sizes",
    "C65_asm_one"
   ],
   "note": ""
  },
  {
   "property": "C66",
   "status": "proved",
   "theorems": [
    "C66_gpuasm",
    "C66_gpuasm_exact",
    "C66_gpuasm_shipped",
    "C66_gpuasm_no_fma",
    "C66_gpuasm_misaligned",
    "C66_gpuasm_other_sizes"
   ],
   "note": ""
  },
  {
   "property": "C67",
   "status": "proved",
   "theorems": [
    "C67_right",
    "C67_blocked4",
    "C67_zero",
    "C67_unknown",
    "C67_misaligned",
    "C67_right_double",
    "C67_right_shipped",
    "C67_wrong_reported_refuted"
   ],
   "note": ""
  },
  {
   "property": "C68",
   "status": "proved",
   "theorems": [
    "C68_same_order",
    "C68_contracted_error",
    "C68_contracted_agree",
    "C68_uncontracted",
    "C68_same_bits_refuted"
   ],
   "note": ""
  },
  {
   "property": "C69",
   "status": "proved",
   "theorems": [
    "C69_integer_exact",
    "C69_integer_value",
    "C69_integer_same_bits",
    "C69_larger_bound_refuted"
   ],
   "note": ""
  },
  {
   "property": "C70",
   "status": "proved",
   "theorems": [
    "C70_suites_pass",
    "C70_semi_two_undefined",
    "C70_cases",
    "C70_excluded",
    "C70_literals"
   ],
   "note": ""
  },
  {
   "property": "C71",
   "status": "proved",
   "theorems": [
    "C71_blind_to_swapped_factors",
    "C71_blind_to_exchanged_blocks",
    "C71_blocks_exchanged_in_single"
   ],
   "note": ""
  },
  {
   "property": "C72",
   "status": "proved",
   "theorems": [
    "C72_passing_certifies",
    "C72_every_check",
    "C72_passing_certifies_all",
    "C72_close_zero"
   ],
   "note": ""
  },
  {
   "property": "C73",
   "status": "proved",
   "theorems": [
    "C73_inside",
    "C73_outside",
    "C73_exact_domain",
    "C73_no_lucky_schedule",
    "C73_without_races"
   ],
   "note": ""
  },
  {
   "property": "C74",
   "status": "proved",
   "theorems": [
    "C74_no_wrap_same",
    "C74_ordinary_sizes",
    "C74_end_to_end",
    "C74_square_wraps",
    "C74_looped_wraps",
    "C74_no_size_bound_refuted"
   ],
   "note": ""
  },
  {
   "property": "C75",
   "status": "proved",
   "theorems": [
    "C75_order_of_each_algorithm",
    "C75_every_product_once",
    "C75_operation_counts"
   ],
   "note": ""
  },
  {
   "property": "C76",
   "status": "proved",
   "theorems": [
    "C76_figures_accurate",
    "C76_flops_exact",
    "C76_flops_near",
    "C76_no_repetitions",
    "C76_no_time",
    "C76_repetitions_ignored",
    "C76_performance_of_the_run_refuted",
    "C76_benchmark_fast",
    "C76_benchmark_rate"
   ],
   "note": ""
  },
  {
   "property": "C77",
   "status": "proved",
   "theorems": [
    "C77_close_means_equal",
    "C77_view_verdict",
    "C77_iterate_verdict",
    "C77_suites_pass",
    "C77_shipped_suites_pass",
    "C77_passing_means_tiled_refuted"
   ],
   "note": ""
  },
  {
   "property": "C78",
   "status": "proved",
   "theorems": [
    "C78_calls",
    "C78_output",
    "C78_shipped_output",
    "C78_separated_refuted",
    "C78_numbers"
   ],
   "note": ""
  },
  {
   "property": "C79",
   "status": "proved",
   "theorems": [
    "C79_kernels",
    "C79_kernels_finite",
    "C79_all_block_sizes",
    "C79_intrinsics",
    "C79_application",
    "C79_application_finite",
    "C79_order_irrelevant_refuted"
   ],
   "note": ""
  },
  {
   "property": "C80",
   "status": "proved",
   "theorems": [
    "C80_identity_exact",
    "C80_program",
    "C80_check_exact"
   ],
   "note": ""
  },
  {
   "property": "C81",
   "status": "proved",
   "theorems": [
    "C81_closest",
    "C81_half_to_even",
    "C81_form",
    "C81_no_numeral",
    "C81_integers",
    "C81_decimals_survive",
    "C81_unsigned",
    "C81_distinct_refuted",
    "C81_zero"
   ],
   "note": ""
  },
  {
   "property": "C82",
   "status": "proved",
   "theorems": [
    "C82_output",
    "C82_output_blocked4",
    "C82_output_nothing"
   ],
   "note": ""
  },
  {
   "property": "C83",
   "status": "proved",
   "theorems": [
    "C83_search",
    "C83_times",
    "C83_performance",
    "C83_plotted",
    "C83_performance_refuted",
    "C83_unknown"
   ],
   "note": ""
  },
  {
   "property": "C84",
   "status": "proved",
   "theorems": [
    "C84_evaluate",
    "C84_readme",
    "C84_readme_combined_refuted"
   ],
   "note": ""
  },
  {
   "property": "C85",
   "status": "proved",
   "theorems": [
    "C85_within_factor_two",
    "C85_packages_in_pairs",
    "C85_busy_bound",
    "C85_busy_bound_power",
    "C85_distributed_refuted",
    "C85_two_localities",
    "C85_relative_criterion",
    "C85_guarantee",
    "C85_percent_refuted"
   ],
   "note": ""
  },
  {
   "property": "C86",
   "status": "proved",
   "theorems": [
    "C86_scale",
    "C86_scale_doubles",
    "C86_min_work_size",
    "C86_power_of_two",
    "C86_equal_shares",
    "C86_equal_shares_refuted",
    "C86_equal_shares_exist",
    "C86_equal_shares_missed"
   ],
   "note": ""
  },
  {
   "property": "C87",
   "status": "proved",
   "theorems": [
    "C87_accepted",
    "C87_command",
    "C87_rejected",
    "C87_negative_refuted",
    "C87_evaluate",
    "C87_evaluate_stops",
    "C87_evaluate_runs",
    "C87_readme",
    "C87_readme_runs",
    "C87_readme_combined_refuted",
    "C87_runner",
    "C87_runner_bind_refuted",
    "C87_each_option",
    "C87_help",
    "C87_twelve",
    "C87_shortened"
   ],
   "note": ""
  },
  {
   "property": "C88",
   "status": "proved",
   "theorems": [
    "C88_level_zero",
    "C88_times",
    "C88_performance",
    "C88_plotted",
    "C88_performance_refuted",
    "C88_single_lines",
    "C88_pseudodynamic_lines",
    "C88_lines_refuted",
    "C88_schedule",
    "C88_inputs",
    "C88_result",
    "C88_padding",
    "C88_where",
    "C88_differences",
    "C88_reference"
   ],
   "note": ""
  },
  {
   "property": "C89",
   "status": "proved",
   "theorems": [
    "C89_names",
    "C89_single_same",
    "C89_application_same",
    "C89_single_product",
    "C89_pseudodynamic_same",
    "C89_pseudodynamic_product",
    "C89_local",
    "C89_lines",
    "C89_stale_refuted"
   ],
   "note": ""
  },
  {
   "property": "C90",
   "status": "proved",
   "theorems": [
    "C90_libraries",
    "C90_engine",
    "C90_draws",
    "C90_guard",
    "C90_apart",
    "C90_distinct",
    "C90_end_to_end",
    "C90_suites_pass",
    "C90_check_exact",
    "C90_single_odd_noticed",
    "C90_pseudodynamic_odd_noticed"
   ],
   "note": ""
  },
  {
   "property": "C91",
   "status": "proved",
   "theorems": [
    "C91_confined",
    "C91_nan",
    "C91_finite",
    "C91_no_overflow",
    "C91_no_minus_zero",
    "C91_minus_zero_fused_refuted",
    "C91_same_overflow_refuted"
   ],
   "note": ""
  }
 ]
}