{
 "claims": [
  {
   "property": "C01",
   "status": "proved",
   "theorems": [
    "C01_create_periods_partition",
    "C01_create_periods_boundaries"
   ],
   "note": ""
  },
  {
   "property": "C02",
   "status": "proved",
   "theorems": [
    "C02_intersects_iff",
    "C02_intersection_instants",
    "C02_intersection_none",
    "C02_intersection_comm",
    "C02_intersection_assoc"
   ],
   "note": ""
  },
  {
   "property": "C03",
   "status": "proved",
   "theorems": [
    "C03_get_periods_selects",
    "C03_get_periods_off_grid"
   ],
   "note": ""
  },
  {
   "property": "C04",
   "status": "proved",
   "theorems": [
    "C04_temporal_model_lookup"
   ],
   "note": ""
  },
  {
   "property": "C05",
   "status": "proved",
   "theorems": [
    "C05_define_time_model",
    "C05_temporal_model_create",
    "C05_unsorted_dates_refuted",
    "C05_overlapping_periods_refuted"
   ],
   "note": "Proved for dates in increasing order and for disjoint periods. Refuted (with witnesses) for date keys out of order and for overlapping period keys."
  },
  {
   "property": "C06",
   "status": "proved",
   "theorems": [
    "C06_resample_periods",
    "C06_resample_dates",
    "C06_off_midnight_refuted",
    "C06_calendar"
   ],
   "note": "Proved for series from midnight to midnight. Refuted (with witness) for a series starting off midnight."
  },
  {
   "property": "C07",
   "status": "proved",
   "theorems": [
    "C07_temporal_expression"
   ],
   "note": ""
  },
  {
   "property": "C08",
   "status": "proved",
   "theorems": [
    "C08_subset_for_period",
    "C08_subset_for_timestep",
    "C08_reaching_outside_refuted",
    "C08_outside_refuted"
   ],
   "note": "See the theorem comments: proved variant and refuted part with witness are both stated in properties.jsonl."
  },
  {
   "property": "C09",
   "status": "proved",
   "theorems": [
    "C09_round_trip",
    "C09_volumes"
   ],
   "note": ""
  },
  {
   "property": "C10",
   "status": "proved",
   "theorems": [
    "C10_volumes_prorated",
    "C10_cumulative_prorated",
    "C10_volumes_conserved"
   ],
   "note": ""
  },
  {
   "property": "C11",
   "status": "proved",
   "theorems": [
    "C11_average",
    "C11_volumes",
    "C11_stream_average_refuted"
   ],
   "note": "The unrestricted English claim is refuted with a witness (theorem ending in _refuted); properties.jsonl carries the restated claim, which is proved."
  },
  {
   "property": "C12",
   "status": "proved",
   "theorems": [
    "C12_running_sum",
    "C12_never_decreases"
   ],
   "note": ""
  },
  {
   "property": "C13",
   "status": "proved",
   "theorems": [
    "C13_merge",
    "C13_extend",
    "C13_merge_rates",
    "C13_split_and_merge",
    "C13_split_and_merge_rates",
    "C13_extend_rates_gap_refuted",
    "C13_extend_rates_order_refuted"
   ],
   "note": "The unrestricted English claim is refuted with a witness (theorem ending in _refuted); properties.jsonl carries the restated claim, which is proved."
  },
  {
   "property": "C14",
   "status": "proved",
   "theorems": [
    "C14_sum",
    "C14_refuses",
    "C14_commutative",
    "C14_zero_rates_refuted"
   ],
   "note": "The unrestricted English claim is refuted with a witness (theorem ending in _refuted); properties.jsonl carries the restated claim, which is proved."
  },
  {
   "property": "C15",
   "status": "proved",
   "theorems": [
    "C15_true_throughout",
    "C15_start_inside_a_day"
   ],
   "note": "The unrestricted English claim is refuted with a witness (theorem ending in _refuted); properties.jsonl carries the restated claim, which is proved."
  },
  {
   "property": "C16",
   "status": "proved",
   "theorems": [
    "C16_last_change_on_the_grid",
    "C16_value_in_force",
    "C16_off_grid_refuted"
   ],
   "note": "The unrestricted English claim is refuted with a witness (theorem ending in _refuted); properties.jsonl carries the restated claim, which is proved."
  },
  {
   "property": "C17",
   "status": "proved",
   "theorems": [
    "C17_fill",
    "C17_refuses"
   ],
   "note": ""
  },
  {
   "property": "C18",
   "status": "proved",
   "theorems": [
    "C18_conversion_keeps_amount",
    "C18_round_trip",
    "C18_conversion_back",
    "C18_path_independent",
    "C18_same_unit",
    "C18_rate_and_volume_units",
    "C18_rate_and_volume_conversion"
   ],
   "note": ""
  },
  {
   "property": "C19",
   "status": "proved",
   "theorems": [
    "C19_evaluate_written_expression",
    "C19_every_expression_can_be_written",
    "C19_missing_reference",
    "C19_multiply"
   ],
   "note": ""
  },
  {
   "property": "C20",
   "status": "proved",
   "theorems": [
    "C20_elementwise"
   ],
   "note": ""
  },
  {
   "property": "C21",
   "status": "proved",
   "theorems": [
    "C21_well_formed",
    "C21_exactly_well_formed",
    "C21_accepted_shape",
    "C21_juxtaposition_refuted",
    "C21_unsupported_operator_refuted"
   ],
   "note": "Exact for sequences without operands side by side: they evaluate iff they are well-formed infix expressions. Refuted (witnesses) for two operands side by side, which are accepted with the first one dropped, and for acceptance before evaluation of an unsupported operator."
  },
  {
   "property": "C22",
   "status": "proved",
   "theorems": [
    "C22_values",
    "C22_any_order",
    "C22_resolved_iff"
   ],
   "note": ""
  },
  {
   "property": "C23",
   "status": "proved",
   "theorems": [
    "C23_temporal_variable",
    "C23_unsorted_dates_refuted",
    "C23_date_inside_period_refuted"
   ],
   "note": "The unrestricted English claim is refuted with a witness (theorem ending in _refuted); properties.jsonl carries the restated claim, which is proved."
  },
  {
   "property": "C24",
   "status": "proved",
   "theorems": [
    "C24_fit",
    "C24_rule_determines",
    "C24_any_order"
   ],
   "note": ""
  },
  {
   "property": "C25",
   "status": "proved",
   "theorems": [
    "C25_time_vector",
    "C25_no_dates",
    "C25_influencing",
    "C25_periods"
   ],
   "note": ""
  },
  {
   "property": "C26",
   "status": "proved",
   "theorems": [
    "C26_emissions",
    "C26_duplicate_refuted"
   ],
   "note": "Refuted (witness) for a fuel that lists an emission twice up to letter case."
  },
  {
   "property": "C27",
   "status": "proved",
   "theorems": [
    "C27_power_requirement",
    "C27_generator_set",
    "C27_result",
    "C27_no_model",
    "C27_margin_refuted"
   ],
   "note": "Refuted (witness) for periods without a model in force: invalid with margin 0."
  },
  {
   "property": "C28",
   "status": "proved",
   "theorems": [
    "C28_system",
    "C28_validation",
    "C28_optimizer"
   ],
   "note": ""
  },
  {
   "property": "C29",
   "status": "proved",
   "theorems": [
    "C29_cross_over",
    "C29_total",
    "C29_keeps_maximum",
    "C29_chain_refuted"
   ],
   "note": "Refuted (witness) for a consumer that both sends and receives."
  },
  {
   "property": "C30",
   "status": "proved",
   "theorems": [
    "C30_power_loss"
   ],
   "note": ""
  },
  {
   "property": "C31",
   "status": "proved",
   "theorems": [
    "C31_returns_last_accepted",
    "C31_raises",
    "C31_bounded",
    "C31_highest_in_window",
    "C31_lowest_in_window"
   ],
   "note": ""
  },
  {
   "property": "C32",
   "status": "proved",
   "theorems": [
    "C32_lowest_edge",
    "C32_highest_edge",
    "C32_lowest_any",
    "C32_highest_any",
    "C32_tolerance_refuted"
   ],
   "note": "Refuted (witness): the tolerance is not always reached by the default 20 iterations; accuracy proved as tolerance or width/2^n."
  },
  {
   "property": "C33",
   "status": "proved",
   "theorems": [
    "C33_threshold",
    "C33_any",
    "C33_bounded",
    "C33_infeasible_refuted"
   ],
   "note": "Refuted (witness) when the condition fails at the lower end."
  },
  {
   "property": "C34",
   "status": "proved",
   "theorems": [
    "C34_sum",
    "C34_balance",
    "C34_constructor",
    "C34_succeeds"
   ],
   "note": "One fraction per item assumed. Only the first overflow declared from an item is used, as in the code."
  },
  {
   "property": "C35",
   "status": "proved",
   "theorems": [
    "C35_shares",
    "C35_own_share",
    "C35_equal_shares",
    "C35_own_share_refuted"
   ],
   "note": "Refuted (witness): with a declared overflow the fractions follow topological order, not the order of the items."
  },
  {
   "property": "C36",
   "status": "proved",
   "theorems": [
    "C36_priorities",
    "C36_refused"
   ],
   "note": ""
  },
  {
   "property": "C37",
   "status": "proved",
   "theorems": [
    "C37_pipeline",
    "C37_loop",
    "C37_liquid_refuted"
   ],
   "note": "Refuted (witness) for a liquid remover inside a loop; proved for loops of units that keep the flow."
  },
  {
   "property": "C38",
   "status": "proved",
   "theorems": [
    "C38_merge",
    "C38_unique",
    "C38_associative",
    "C38_combine",
    "C38_combine_associative",
    "C38_lookup"
   ],
   "note": ""
  },
  {
   "property": "C39",
   "status": "proved",
   "theorems": [
    "C39_common",
    "C39_rate",
    "C39_downstream",
    "C39_upstream",
    "C39_pressure",
    "C39_unsettled_refuted",
    "C39_stage_refuted",
    "C39_tolerance_refuted"
   ],
   "note": "Proved for each of the five pressure controls under explicit conditions on the root finder (accuracy in the function value; for upstream choke and per-stage targets also that the answer is the last point asked for). Refuted with witnesses without these conditions."
  },
  {
   "property": "C40",
   "status": "proved",
   "theorems": [
    "C40_independent",
    "C40_local",
    "C40_history",
    "C40_assembled"
   ],
   "note": ""
  },
  {
   "property": "C41",
   "status": "proved",
   "theorems": [
    "C41_equal_ratio",
    "C41_errors"
   ],
   "note": ""
  },
  {
   "property": "C42",
   "status": "proved",
   "theorems": [
    "C42_volume",
    "C42_target",
    "C42_curve",
    "C42_liquid",
    "C42_accepted",
    "C42_running",
    "C42_stopped",
    "C42_refused",
    "C42_failure",
    "C42_rate",
    "C42_head",
    "C42_streams",
    "C42_series",
    "C42_maximum",
    "C42_unreachable",
    "C42_power_refuted",
    "C42_model",
    "C42_model_stopped",
    "C42_model_series"
   ],
   "note": ""
  },
  {
   "property": "C43",
   "status": "proved",
   "theorems": [
    "C43_mixing",
    "C43_order",
    "C43_molar_mass"
   ],
   "note": "For streams as the fluid service makes them (proper composition, molar mass of that composition)."
  },
  {
   "property": "C44",
   "status": "proved",
   "theorems": [
    "C44_every_result",
    "C44_threads",
    "C44_threads_right",
    "C44_disabled",
    "C44_negative_size",
    "C44_registry",
    "C44_clear_all"
   ],
   "note": ""
  },
  {
   "property": "C45",
   "status": "proved",
   "theorems": [
    "C45_overlap",
    "C45_empty",
    "C45_periods",
    "C45_components",
    "C45_profiles",
    "C45_difference",
    "C45_amount",
    "C45_valid",
    "C45_swap",
    "C45_self",
    "C45_power_refuted",
    "C45_partial_periods_refuted"
   ],
   "note": ""
  },
  {
   "property": "C46",
   "status": "proved",
   "theorems": [
    "C46_total_unique",
    "C46_category",
    "C46_category_answer",
    "C46_sum",
    "C46_resampled",
    "C46_rows",
    "C46_max",
    "C46_max_resampled",
    "C46_formatted",
    "C46_report",
    "C46_table",
    "C46_max_refuted",
    "C46_nan_refuted",
    "C46_same_name_refuted"
   ],
   "note": ""
  },
  {
   "property": "C47",
   "status": "proved",
   "theorems": [
    "C47_topological",
    "C47_breadth_first",
    "C47_successors_recursive",
    "C47_successors",
    "C47_predecessor",
    "C47_add_edge",
    "C47_add_subgraph"
   ],
   "note": ""
  },
  {
   "property": "C48",
   "status": "proved",
   "theorems": [
    "C48_interpolation",
    "C48_between",
    "C48_monotone",
    "C48_row_order",
    "C48_tabulated"
   ],
   "note": ""
  },
  {
   "property": "C49",
   "status": "proved",
   "theorems": [
    "C49_regularity",
    "C49_zero_refuted"
   ],
   "note": "Refuted (witness) for the number 0, which means 1."
  },
  {
   "property": "C50",
   "status": "proved",
   "theorems": [
    "C50_refused",
    "C50_close",
    "C50_idempotent",
    "C50_minus_zero_refuted",
    "C50_text_unique",
    "C50_integer",
    "C50_precision_refuted",
    "C50_results"
   ],
   "note": ""
  },
  {
   "property": "C51",
   "status": "proved",
   "theorems": [
    "C51_reference",
    "C51_date_column",
    "C51_validated",
    "C51_own_column",
    "C51_case_refuted",
    "C51_last_counts",
    "C51_split"
   ],
   "note": "Refuted (witness) for headers that differ only in letter case."
  },
  {
   "property": "C52",
   "status": "proved",
   "theorems": [
    "C52_turbine",
    "C52_flag_refuted",
    "C52_below_table_refuted"
   ],
   "note": "Refuted (witnesses) for the flag with an adjusted maximum load and for power below the table."
  },
  {
   "property": "C53",
   "status": "proved",
   "theorems": [
    "C53_cable_loss"
   ],
   "note": ""
  },
  {
   "property": "C54",
   "status": "proved",
   "theorems": [
    "C54_flow_rates"
   ],
   "note": ""
  },
  {
   "property": "C55",
   "status": "proved",
   "theorems": [
    "C55_comparisons",
    "C55_trichotomy",
    "C55_transitive_refuted"
   ],
   "note": "Transitivity of == refuted (witness). Comparing two targets with each other is not modelled."
  },
  {
   "property": "C56",
   "status": "proved",
   "theorems": [
    "C56_build",
    "C56_hierarchy",
    "C56_root"
   ],
   "note": ""
  },
  {
   "property": "C57",
   "status": "proved",
   "theorems": [
    "C57_from_standard_rate",
    "C57_from_mass_rate",
    "C57_conversions",
    "C57_with_rate"
   ],
   "note": ""
  },
  {
   "property": "C58",
   "status": "proved",
   "theorems": [
    "C58_answers",
    "C58_transparent",
    "C58_transparent_refuted",
    "C58_pt_accuracy",
    "C58_ph_accuracy"
   ],
   "note": "Exact transparency refuted (witness: neighbours with the same rounded key); proved that every answer is the fresh calculation of a request with the same key."
  },
  {
   "property": "C59",
   "status": "proved",
   "theorems": [
    "C59_individual",
    "C59_common"
   ],
   "note": ""
  },
  {
   "property": "C60",
   "status": "proved",
   "theorems": [
    "C60_connections"
   ],
   "note": ""
  },
  {
   "property": "C61",
   "status": "proved",
   "theorems": [
    "C61_compressor",
    "C61_limits",
    "C61_liquid"
   ],
   "note": ""
  },
  {
   "property": "C62",
   "status": "proved",
   "theorems": [
    "C62_range",
    "C62_step"
   ],
   "note": ""
  },
  {
   "property": "C63",
   "status": "proved",
   "theorems": [
    "C63_range"
   ],
   "note": ""
  },
  {
   "property": "C64",
   "status": "proved",
   "theorems": [
    "C64_speed_boundary",
    "C64_variable_speed",
    "C64_single_speed",
    "C64_reset",
    "C64_connect"
   ],
   "note": ""
  },
  {
   "property": "C65",
   "status": "proved",
   "theorems": [
    "C65_pressure_drop",
    "C65_choke_configuration",
    "C65_splitter",
    "C65_temperature",
    "C65_liquid_remover"
   ],
   "note": ""
  },
  {
   "property": "C66",
   "status": "proved",
   "theorems": [
    "C66_production",
    "C66_maximum",
    "C66_storage",
    "C66_fuel",
    "C66_power",
    "C66_emissions",
    "C66_fuel_rows",
    "C66_required",
    "C66_one_category",
    "C66_fuel_change_refuted"
   ],
   "note": ""
  },
  {
   "property": "C67",
   "status": "proved",
   "theorems": [
    "C67_valid",
    "C67_inside",
    "C67_outside",
    "C67_flag",
    "C67_bounds",
    "C67_rate_of_curve",
    "C67_no_flow_refuted",
    "C67_recirculated_refuted"
   ],
   "note": ""
  },
  {
   "property": "C68",
   "status": "proved",
   "theorems": [
    "C68_capacity",
    "C68_accepts",
    "C68_settled",
    "C68_crossing_refuted"
   ],
   "note": ""
  },
  {
   "property": "C69",
   "status": "proved",
   "theorems": [
    "C69_margin",
    "C69_no_margin",
    "C69_chart",
    "C69_large_margin_refuted"
   ],
   "note": ""
  },
  {
   "property": "C70",
   "status": "proved",
   "theorems": [
    "C70_design",
    "C70_holds",
    "C70_input_refuted"
   ],
   "note": ""
  },
  {
   "property": "C71",
   "status": "proved",
   "theorems": [
    "C71_capacity",
    "C71_generic"
   ],
   "note": ""
  },
  {
   "property": "C72",
   "status": "proved",
   "theorems": [
    "C72_installation",
    "C72_asset",
    "C72_asset_installations",
    "C72_negative_power_refuted"
   ],
   "note": ""
  },
  {
   "property": "C73",
   "status": "proved",
   "theorems": [
    "C73_validity"
   ],
   "note": ""
  },
  {
   "property": "C74",
   "status": "proved",
   "theorems": [
    "C74_intensity",
    "C74_weighted"
   ],
   "note": ""
  },
  {
   "property": "C75",
   "status": "proved",
   "theorems": [
    "C75_components"
   ],
   "note": ""
  },
  {
   "property": "C76",
   "status": "proved",
   "theorems": [
    "C76_recirculates",
    "C76_runs_at"
   ],
   "note": ""
  },
  {
   "property": "C77",
   "status": "proved",
   "theorems": [
    "C77_loss",
    "C77_train"
   ],
   "note": ""
  },
  {
   "property": "C78",
   "status": "proved",
   "theorems": [
    "C78_conserves",
    "C78_honours",
    "C78_too_much_refuted"
   ],
   "note": "The unrestricted English claim is refuted with a witness (theorem ending in _refuted); properties.jsonl carries the restated claim, which is proved."
  },
  {
   "property": "C79",
   "status": "proved",
   "theorems": [
    "C79_speed",
    "C79_range"
   ],
   "note": ""
  },
  {
   "property": "C80",
   "status": "proved",
   "theorems": [
    "C80_inlet",
    "C80_carries",
    "C80_common_refuted"
   ],
   "note": "The unrestricted English claim is refuted with a witness (theorem ending in _refuted); properties.jsonl carries the restated claim, which is proved."
  },
  {
   "property": "C81",
   "status": "proved",
   "theorems": [
    "C81_truthful",
    "C81_two_pressures_refuted"
   ],
   "note": "The unrestricted English claim is refuted with a witness (theorem ending in _refuted); properties.jsonl carries the restated claim, which is proved."
  },
  {
   "property": "C82",
   "status": "proved",
   "theorems": [
    "C82_valid",
    "C82_invalid",
    "C82_reason",
    "C82_power_refuted"
   ],
   "note": "The unrestricted English claim is refuted with a witness (theorem ending in _refuted); properties.jsonl carries the restated claim, which is proved."
  },
  {
   "property": "C83",
   "status": "proved",
   "theorems": [
    "C83_history",
    "C83_periods",
    "C83_fixed_speed"
   ],
   "note": ""
  },
  {
   "property": "C84",
   "status": "proved",
   "theorems": [
    "C84_history_refuted",
    "C84_recirculation",
    "C84_periods"
   ],
   "note": "The unrestricted English claim is refuted with a witness (theorem ending in _refuted); properties.jsonl carries the restated claim, which is proved."
  },
  {
   "property": "C85",
   "status": "proved",
   "theorems": [
    "C85_idle",
    "C85_zero",
    "C85_negative",
    "C85_positive"
   ],
   "note": ""
  },
  {
   "property": "C86",
   "status": "proved",
   "theorems": [
    "C86_choke",
    "C86_individual",
    "C86_common"
   ],
   "note": ""
  },
  {
   "property": "C87",
   "status": "proved",
   "theorems": [
    "C87_between",
    "C87_looks",
    "C87_inside"
   ],
   "note": ""
  },
  {
   "property": "C88",
   "status": "proved",
   "theorems": [
    "C88_rates"
   ],
   "note": ""
  },
  {
   "property": "C89",
   "status": "proved",
   "theorems": [
    "C89_off",
    "C89_interpolates",
    "C89_outside",
    "C89_accepted",
    "C89_refused",
    "C89_constant_refuted"
   ],
   "note": "The unrestricted English claim is refuted with a witness (theorem ending in _refuted); properties.jsonl carries the restated claim, which is proved."
  },
  {
   "property": "C90",
   "status": "proved",
   "theorems": [
    "C90_rate_and_discharge",
    "C90_rate_and_suction",
    "C90_suction_and_discharge",
    "C90_centre_refuted",
    "C90_accepted_refuted"
   ],
   "note": "The unrestricted English claim is refuted with a witness (theorem ending in _refuted); properties.jsonl carries the restated claim, which is proved."
  },
  {
   "property": "C91",
   "status": "proved",
   "theorems": [
    "C91_alone",
    "C91_lengths",
    "C91_reported_rate"
   ],
   "note": ""
  },
  {
   "property": "C92",
   "status": "proved",
   "theorems": [
    "C92_electric",
    "C92_fuel_alone",
    "C92_fuel_and_power"
   ],
   "note": ""
  },
  {
   "property": "C93",
   "status": "proved",
   "theorems": [
    "C93_no_rate",
    "C93_table",
    "C93_constant",
    "C93_delivered",
    "C93_two_refuted"
   ],
   "note": "The unrestricted English claim is refuted with a witness (theorem ending in _refuted); properties.jsonl carries the restated claim, which is proved."
  },
  {
   "property": "C94",
   "status": "proved",
   "theorems": [
    "C94_division",
    "C94_accepted",
    "C94_refused",
    "C94_refused_refuted",
    "C94_unique"
   ],
   "note": "Finding: a constraint on the last unit together with one on the outlet raises IndexError instead of a validation error (C94_refused_refuted)."
  },
  {
   "property": "C95",
   "status": "proved",
   "theorems": [
    "C95_accepted",
    "C95_refused"
   ],
   "note": ""
  },
  {
   "property": "C96",
   "status": "proved",
   "theorems": [
    "C96_accepted",
    "C96_pipeline",
    "C96_protected",
    "C96_shaped",
    "C96_targets",
    "C96_last_target",
    "C96_earlier_target_refuted"
   ],
   "note": "Finding: for every section but the last the constraint is attached to the last unit but one (C96_earlier_target_refuted); the code's comment says the last unit."
  },
  {
   "property": "C97",
   "status": "proved",
   "theorems": [
    "C97_reported",
    "C97_calendar",
    "C97_names",
    "C97_duplicate_refuted"
   ],
   "note": "Finding: emissions whose names differ only in case overwrite each other (C97_duplicate_refuted)."
  },
  {
   "property": "C98",
   "status": "proved",
   "theorems": [
    "C98_reported",
    "C98_names",
    "C98_storage"
   ],
   "note": ""
  },
  {
   "property": "C99",
   "status": "proved",
   "theorems": [
    "C99_covered",
    "C99_gap_refuted",
    "C99_fuel",
    "C99_power",
    "C99_electricity",
    "C99_emissions"
   ],
   "note": "Finding: a gap between fuels given as periods passes the check (C99_gap_refuted); fuels given by dates have no gaps."
  },
  {
   "property": "C100",
   "status": "proved",
   "theorems": [
    "C100_concatenated",
    "C100_refused",
    "C100_settings"
   ],
   "note": "Finding: a single result without power removes the power of the whole run (stated in C100_concatenated)."
  },
  {
   "property": "C101",
   "status": "proved",
   "theorems": [
    "C101_direct"
   ],
   "note": "Direct models given plainly or by date. Finding: a loss factor of one gives no number but counts as valid."
  },
  {
   "property": "C102",
   "status": "proved",
   "theorems": [
    "C102_conditions",
    "C102_zero_refuted"
   ],
   "note": "Finding: CONDITION: 0 does not switch a model off (C102_zero_refuted)."
  },
  {
   "property": "C103",
   "status": "proved",
   "theorems": [
    "C103_tabulated"
   ],
   "note": "Interpolation in several variables is an arbitrary function of table and point; headers of a table are distinct."
  },
  {
   "property": "C104",
   "status": "proved",
   "theorems": [
    "C104_read",
    "C104_evaluate",
    "C104_alone",
    "C104_kept",
    "C104_refused",
    "C104_exponent_refuted"
   ],
   "note": ""
  },
  {
   "property": "C105",
   "status": "proved",
   "theorems": [
    "C105_written",
    "C105_negative_refuted"
   ],
   "note": ""
  },
  {
   "property": "C106",
   "status": "proved",
   "theorems": [
    "C106_pressures"
   ],
   "note": ""
  },
  {
   "property": "C107",
   "status": "proved",
   "theorems": [
    "C107_pump"
   ],
   "note": ""
  },
  {
   "property": "C108",
   "status": "proved",
   "theorems": [
    "C108_one_stream",
    "C108_several_streams",
    "C108_turbine",
    "C108_missing_pressure",
    "C108_message_refuted"
   ],
   "note": ""
  },
  {
   "property": "C109",
   "status": "proved",
   "theorems": [
    "C109_description",
    "C109_system",
    "C109_rates_refuted",
    "C109_total_refuted",
    "C109_not_in_use_refuted"
   ],
   "note": "Findings: descriptions without rates, or with fractions but no total, are accepted and fail later (C109_rates_refuted, C109_total_refuted); a pump system not in use is refused for its pressures (C109_not_in_use_refuted)."
  },
  {
   "property": "C110",
   "status": "proved",
   "theorems": [
    "C110_component",
    "C110_pump",
    "C110_pump_system"
   ],
   "note": "NaN rates and pressures are not modelled."
  },
  {
   "property": "C111",
   "status": "proved",
   "theorems": [
    "C111_largest_rate",
    "C111_load",
    "C111_adjusted_refuted",
    "C111_sampled_refuted"
   ],
   "note": "Findings: adjusted energy usage is ignored by the largest rate (C111_adjusted_refuted); sampled compressors with a turbine have no largest rate (C111_sampled_refuted). The root finder is an argument with stated hypotheses."
  },
  {
   "property": "C112",
   "status": "proved",
   "theorems": [
    "C112_model"
   ],
   "note": "Energy usage models and their evaluation are arguments; the results of pumps, compressors and systems are those of C100 to C111. Fresh identities never repeat. Dates may be written, periods not; the run does not cut a period; tables of generator sets do not change inside a period."
  },
  {
   "property": "C113",
   "status": "proved",
   "theorems": [
    "C113_accepted",
    "C113_outside_refuted"
   ],
   "note": "Finding: a generator set whose tables lie outside the run is refused with IndexError (C113_outside_refuted). What is wrong inside an energy usage model is found when it is evaluated (C100 to C111)."
  },
  {
   "property": "C114",
   "status": "proved",
   "theorems": [
    "C114_totals"
   ],
   "note": "The unit of the fuel of an energy usage model is a hypothesis on the evaluation of models (true for the models of C100 to C111). Fuels list an emission once (C26_duplicate_refuted otherwise) and change between periods. A power that is not a number counts zero in the total; the cumulative power is stated for powers that are numbers and not negative (C72_negative_power_refuted)."
  },
  {
   "property": "C115",
   "status": "proved",
   "theorems": [
    "C115_accepted",
    "C115_refused_early",
    "C115_refused_late",
    "C115_again_refuted"
   ],
   "note": "Finding: a text whose components are refused is accepted by the second call, because the model is marked as validated before its components are mapped (C115_again_refuted). Pumps and compressors are evaluated before the loop in the code; the model evaluates them in it, so that which results exist after a failed evaluation is not claimed."
  },
  {
   "property": "C116",
   "status": "proved",
   "theorems": [
    "C116_train",
    "C116_sampled"
   ],
   "note": "Fixed-speed trains keep a speed in their state: the theorem asks that it is the same for the series and for the period alone. For sampled compressors the statement is about series whose evaluation succeeds."
  },
  {
   "property": "C117",
   "status": "proved",
   "theorems": [
    "C117_units",
    "C117_fails",
    "C117_totals"
   ],
   "note": "Numerical libraries (powers, interpolation in several variables, nearest point, flash, root finder) are arbitrary functions. In the code a model is evaluated period by period as a numpy series: that this is the same is C83, C91 and C116 for the machines. Charts made from the whole series of inputs and simplified trains are not included."
  },
  {
   "property": "C118",
   "status": "proved",
   "theorems": [
    "C118_pressures",
    "C118_idle",
    "C118_refused",
    "C118_periods"
   ],
   "note": ""
  },
  {
   "property": "C119",
   "status": "proved",
   "theorems": [
    "C119_stages",
    "C119_reported",
    "C119_validity",
    "C119_no_increase_refuted",
    "C119_unexplained_refuted",
    "C119_no_power_refuted"
   ],
   "note": ""
  },
  {
   "property": "C120",
   "status": "proved",
   "theorems": [
    "C120_maximum",
    "C120_on_the_chart",
    "C120_reported",
    "C120_power_ignored_refuted"
   ],
   "note": ""
  },
  {
   "property": "C121",
   "status": "proved",
   "theorems": [
    "C121_number",
    "C121_success",
    "C121_failure",
    "C121_targets",
    "C121_local",
    "C121_equal_ratio"
   ],
   "note": ""
  },
  {
   "property": "C122",
   "status": "proved",
   "theorems": [
    "C122_accepts",
    "C122_refuses",
    "C122_number",
    "C122_success",
    "C122_failure",
    "C122_below"
   ],
   "note": ""
  },
  {
   "property": "C123",
   "status": "proved",
   "theorems": [
    "C123_none",
    "C123_excess",
    "C123_again",
    "C123_remaining_refuted"
   ],
   "note": ""
  },
  {
   "property": "C124",
   "status": "proved",
   "theorems": [
    "C124_duplicates",
    "C124_components",
    "C124_lists",
    "C124_references",
    "C124_systems_refuted"
   ],
   "note": ""
  },
  {
   "property": "C125",
   "status": "proved",
   "theorems": [
    "C125_found",
    "C125_checked",
    "C125_resolved",
    "C125_compressor",
    "C125_system",
    "C125_keys_refuted",
    "C125_stream_key_refuted",
    "C125_pump_refuted",
    "C125_table_chart_refuted",
    "C125_generic_chart_refuted"
   ],
   "note": ""
  },
  {
   "property": "C126",
   "status": "proved",
   "theorems": [
    "C126_all_stages",
    "C126_kept_stages",
    "C126_stages_refuted"
   ],
   "note": ""
  },
  {
   "property": "C127",
   "status": "proved",
   "theorems": [
    "C127_inputs",
    "C127_results",
    "C127_no_start_refuted"
   ],
   "note": ""
  },
  {
   "property": "C128",
   "status": "proved",
   "theorems": [
    "C128_events",
    "C128_lookup",
    "C128_same_name_refuted"
   ],
   "note": ""
  },
  {
   "property": "C129",
   "status": "proved",
   "theorems": [
    "C129_simulations",
    "C129_no_start_refuted",
    "C129_fractions_refuted",
    "C129_twice_refuted",
    "C129_change_from_refuted",
    "C129_target_refuted"
   ],
   "note": ""
  },
  {
   "property": "C130",
   "status": "proved",
   "theorems": [
    "C130_rates",
    "C130_types",
    "C130_fluid"
   ],
   "note": ""
  },
  {
   "property": "C131",
   "status": "proved",
   "theorems": [
    "C131_variable_accepted",
    "C131_variable_curves",
    "C131_single_accepted",
    "C131_single_curves",
    "C131_written_accepted",
    "C131_written_curves",
    "C131_written_as_file",
    "C131_determined",
    "C131_header_case_refuted",
    "C131_other_columns_refuted",
    "C131_same_speed_refuted"
   ],
   "note": ""
  },
  {
   "property": "C132",
   "status": "proved",
   "theorems": [
    "C132_fewest",
    "C132_accepted",
    "C132_stages",
    "C132_equal_pressures_refuted",
    "C132_ratio_one_refuted"
   ],
   "note": ""
  },
  {
   "property": "C133",
   "status": "proved",
   "theorems": [
    "C133_leads",
    "C133_each",
    "C133_main",
    "C133_top",
    "C133_distinct",
    "C133_repeated_directory_refuted",
    "C133_same_path_refuted"
   ],
   "note": ""
  },
  {
   "property": "C134",
   "status": "proved",
   "theorems": [
    "C134_each",
    "C134_kept",
    "C134_changed",
    "C134_distinct",
    "C134_same_name",
    "C134_length",
    "C134_underscores_refuted"
   ],
   "note": ""
  },
  {
   "property": "C135",
   "status": "proved",
   "theorems": [
    "C135_accepted",
    "C135_used",
    "C135_archive",
    "C135_archive_alone",
    "C135_main_file",
    "C135_case_refuted",
    "C135_dot_refuted"
   ],
   "note": ""
  },
  {
   "property": "C136",
   "status": "proved",
   "theorems": [
    "C136_closed",
    "C136_area",
    "C136_once"
   ],
   "note": ""
  },
  {
   "property": "C137",
   "status": "proved",
   "theorems": [
    "C137_columns",
    "C137_refused",
    "C137_distinct",
    "C137_distinct_refuted"
   ],
   "note": ""
  },
  {
   "property": "C138",
   "status": "proved",
   "theorems": [
    "C138_columns",
    "C138_aligned",
    "C138_table"
   ],
   "note": ""
  },
  {
   "property": "C139",
   "status": "proved",
   "theorems": [
    "C139_found",
    "C139_split"
   ],
   "note": ""
  },
  {
   "property": "C140",
   "status": "proved",
   "theorems": [
    "C140_files",
    "C140_found",
    "C140_timeseries"
   ],
   "note": ""
  },
  {
   "property": "C141",
   "status": "proved",
   "theorems": [
    "C141_place",
    "C141_file_refuted"
   ],
   "note": ""
  },
  {
   "property": "C142",
   "status": "proved",
   "theorems": [
    "C142_read",
    "C142_accepted"
   ],
   "note": ""
  },
  {
   "property": "C143",
   "status": "proved",
   "theorems": [
    "C143_own",
    "C143_all",
    "C143_no_includes",
    "C143_refused",
    "C143_not_allowed_refuted"
   ],
   "note": ""
  },
  {
   "property": "C144",
   "status": "proved",
   "theorems": [
    "C144_written",
    "C144_others",
    "C144_outside_refuted",
    "C144_slash_refuted",
    "C144_no_co2_refuted",
    "C144_no_co2"
   ],
   "note": ""
  },
  {
   "property": "C145",
   "status": "proved",
   "theorems": [
    "C145_apart",
    "C145_folders",
    "C145_dots_refuted",
    "C145_intensity_refuted"
   ],
   "note": ""
  },
  {
   "property": "C146",
   "status": "proved",
   "theorems": [
    "C146_user",
    "C146_generic",
    "C146_only",
    "C146_zero_efficiency_refuted"
   ],
   "note": ""
  },
  {
   "property": "C147",
   "status": "proved",
   "theorems": [
    "C147_replaced",
    "C147_rest",
    "C147_unknown",
    "C147_same",
    "C147_optional_refuted",
    "C147_nested_refuted"
   ],
   "note": ""
  },
  {
   "property": "C148",
   "status": "proved",
   "theorems": [
    "C148_read",
    "C148_round_trip",
    "C148_written",
    "C148_order",
    "C148_invalid_refuted",
    "C148_long_refuted"
   ],
   "note": ""
  },
  {
   "property": "C149",
   "status": "proved",
   "theorems": [
    "C149_found",
    "C149_only",
    "C149_model_or_expression_refuted",
    "C149_tuple_refuted"
   ],
   "note": ""
  },
  {
   "property": "C150",
   "status": "proved",
   "theorems": [
    "C150_time_series",
    "C150_facilities",
    "C150_errors",
    "C150_runs",
    "C150_no_text_refuted"
   ],
   "note": ""
  },
  {
   "property": "C151",
   "status": "proved",
   "theorems": [
    "C151_accepted",
    "C151_refused",
    "C151_before_run_refuted"
   ],
   "note": ""
  },
  {
   "property": "C152",
   "status": "proved",
   "theorems": [
    "C152_single",
    "C152_fresh",
    "C152_configured",
    "C152_exit",
    "C152_one_kind",
    "C152_nested_refuted",
    "C152_failed_close_refuted",
    "C152_subclass_refuted"
   ],
   "note": ""
  },
  {
   "property": "C153",
   "status": "proved",
   "theorems": [
    "C153_accepted",
    "C153_reported",
    "C153_evaluates",
    "C153_refused",
    "C153_syntax_refuted"
   ],
   "note": ""
  },
  {
   "property": "C154",
   "status": "proved",
   "theorems": [
    "C154_subtracts",
    "C154_only_same_keys",
    "C154_missing",
    "C154_reversed"
   ],
   "note": ""
  },
  {
   "property": "C155",
   "status": "proved",
   "theorems": [
    "C155_accepted",
    "C155_listed"
   ],
   "note": ""
  },
  {
   "property": "C156",
   "status": "proved",
   "theorems": [
    "C156_shown_once",
    "C156_dots_refuted",
    "C156_dates_refuted"
   ],
   "note": ""
  },
  {
   "property": "C157",
   "status": "proved",
   "theorems": [
    "C157_in_force",
    "C157_one_period",
    "C157_order_refuted"
   ],
   "note": ""
  }
 ]
}