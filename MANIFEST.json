{
 "claims": [
  {
   "property": "C01",
   "status": "proved",
   "theorems": [
    "C01_full_enumeration",
    "C01_scenario_count",
    "C01_labels"
   ],
   "note": "usize overflow of the product of sizes is not modelled"
  },
  {
   "property": "C02",
   "status": "proved",
   "theorems": [
    "C02_subset_enumeration",
    "C02_subset_as_asked",
    "C02_builder_accepts"
   ],
   "note": ""
  },
  {
   "property": "C03",
   "status": "proved",
   "theorems": [
    "C03_lookup_unaffected_by_subset",
    "C03_lookup_unaffected_by_combinations",
    "C03_constant_built",
    "C03_constant_in_subsets",
    "C03_constant_in_combinations"
   ],
   "note": "Index subsets must be in range: the code does not validate them and array parameters panic otherwise"
  },
  {
   "property": "C04",
   "status": "proved",
   "theorems": [
    "C04_combinations_run_as_listed"
   ],
   "note": ""
  },
  {
   "property": "C05",
   "status": "partial",
   "theorems": [
    "C05_schema_id_sliced_partial",
    "C05_schema_id_combinations_refuted"
   ],
   "note": "True for sliced runs; false for explicit combinations, where schema_id treats the first group as fastest varying"
  },
  {
   "property": "C06",
   "status": "proved",
   "theorems": [
    "C06_fixed_steps_tile",
    "C06_empty_period_rejected"
   ],
   "note": "jiff's date arithmetic is modelled from its documentation; year limits are not modelled"
  },
  {
   "property": "C07",
   "status": "proved",
   "theorems": [
    "C07_frequency_steps_tile",
    "C07_month_steps_calendar",
    "C07_non_positive_rejected",
    "C07_fixed_step_duration"
   ],
   "note": "Parsing of the frequency string is polars code and is not modelled"
  },
  {
   "property": "C08",
   "status": "proved",
   "theorems": [
    "C08_index_is_leap_year_position",
    "C08_index_range",
    "C08_index_injective",
    "C08_only_feb29_has_59",
    "C08_next_day"
   ],
   "note": ""
  },
  {
   "property": "C09",
   "status": "proved",
   "theorems": [
    "C09_link_mass_balance",
    "C09_edge_flows_non_negative"
   ],
   "note": "for every well-formed network (every built one is: C37_built_well_formed), every history of updates and every feasible column vector"
  },
  {
   "property": "C10",
   "status": "proved",
   "theorems": [
    "C10_every_edge_has_a_column",
    "C10_shared_columns_are_equal_flows",
    "C10_programme_exists",
    "C10_solutions_are_allocations",
    "C10_allocations_are_solutions"
   ],
   "note": "the equivalence with the one-variable-per-edge model is stated for networks whose aggregated nodes carry limits only; factors and exclusivity are C38/C39"
  },
  {
   "property": "C11",
   "status": "proved",
   "theorems": [
    "C11_node_limits",
    "C11_aggregated_node_limits",
    "C11_virtual_storage_limits"
   ],
   "note": "members of mutually exclusive sets: C39_member_limits (constant limits)"
  },
  {
   "property": "C12",
   "status": "proved",
   "theorems": [
    "C12_no_trace_of_earlier_steps",
    "C12_histories_are_indistinguishable",
    "C10_allocations_are_solutions"
   ],
   "note": "the update of any earlier-updated programme equals the update of the fresh one; the tightest bound follows from C10/C11"
  },
  {
   "property": "C13",
   "status": "proved",
   "theorems": [
    "C13_objective_is_edge_costs",
    "C13_objective_is_node_costs",
    "C13_node_cost"
   ],
   "note": ""
  },
  {
   "property": "C14",
   "status": "proved",
   "theorems": [
    "C14_storage_balance",
    "C14_never_panics",
    "C14_volume_history"
   ],
   "note": "for storages outside mutually exclusive sets (a storage in an exclusive set is not bounded by the programme, see C39); any number of time-steps"
  },
  {
   "property": "C15",
   "status": "proved",
   "theorems": [
    "C15_edge_flows",
    "C15_node_flows",
    "C15_network_balance",
    "C15_network_balance_written",
    "C15_write_back_succeeds"
   ],
   "note": "any previous state and any flows"
  },
  {
   "property": "C16",
   "status": "proved",
   "theorems": [
    "C16_virtual_storage_use",
    "C16_any_flows"
   ],
   "note": "the start volume is assumed within its limits: C18_weekly_initial_use_panics_refuted shows a virtual storage that leaves them by itself"
  },
  {
   "property": "C17",
   "status": "proved",
   "theorems": [
    "C17_resets",
    "C17_reset_times_exist",
    "C17_reset_times_unique",
    "C17_day_of_year_missed_refuted"
   ],
   "note": "for virtual storages without rolling window (C18 has the others); the refuted theorem records that a day-of-year reset is skipped when no time-step starts on that day"
  },
  {
   "property": "C18",
   "status": "partial",
   "theorems": [
    "C18_rolling_window_partial",
    "C18_varying_steps_refuted",
    "C18_weekly_initial_use_panics_refuted"
   ],
   "note": "proved for time-steps of one length from a reset on; for varying lengths the property is false of the code, and the use before the reset is returned once per day instead of once"
  },
  {
   "property": "C19",
   "status": "partial",
   "theorems": [
    "C19_equations_partial",
    "C19_declaration_order_partial",
    "C19_node_max_flow_read",
    "C19_classes_exist",
    "C19_every_parameter_once",
    "C19_references_first",
    "C19_indices_in_range",
    "C19_node_max_flow_refuted"
   ],
   "note": "Proved for parameters and network metrics without metrics on a node's maximum flow; with them the result does depend on the declaration order (C19_node_max_flow_refuted). The table of metric resolution used here refuses an integer metric that asks for another value than that before the solve of a constant or simple parameter; the code accepts it (C21_shared_table_exact delimits the difference), so such metrics are outside what is proved."
  },
  {
   "property": "C20",
   "status": "partial",
   "theorems": [
    "C20_terminates",
    "C20_never_panics",
    "C20_success_means_well_formed",
    "C20_succeeds_iff_partial",
    "C20_order_does_not_matter",
    "C20_duplicate_iff",
    "C20_duplicate_name",
    "C20_not_found",
    "C20_circular",
    "C20_missing_masked_refuted",
    "C20_feedback_rejected_refuted"
   ],
   "note": "The two refutations show what is not promised: a cycle hides an undefined reference, and feedback through the previous time-step counts as a cycle. The table of metric resolution used here refuses an integer metric that asks for another value than that before the solve of a constant or simple parameter; the code accepts it (C21_shared_table_exact delimits the difference), so such metrics are outside what is proved."
  },
  {
   "property": "C21",
   "status": "partial",
   "theorems": [
    "C21_before_consumers",
    "C21_current_value_rejected_partial",
    "C21_rejected_at_build_partial",
    "C21_previous_value",
    "C21_initial_value",
    "C21_integer_before_consumers",
    "C21_integer_rejected_partial",
    "C21_integer_current_value_refuted",
    "C21_shared_table_exact",
    "C21_integer_as_before"
   ],
   "note": "Rejection of requests for a current after-phase value is proved for floating-point metrics, and for integer metrics of general parameters. It fails in the code for integer metrics of constant and simple parameters (refuted). What is read before the solve is proved for both. There the code gives the value before the solve (C21_integer_as_before)."
  },
  {
   "property": "C22",
   "status": "proved",
   "theorems": [
    "C22_general",
    "C22_simple",
    "C22_general_zero",
    "C22_in_model"
   ],
   "note": "Delay parameter over every history, both variants, and inside a whole network run."
  },
  {
   "property": "C23",
   "status": "proved",
   "theorems": [
    "C23_general",
    "C23_simple",
    "C23_window",
    "C23_minimum_beyond_window",
    "C23_in_model"
   ],
   "note": "Rolling parameter with any aggregation function, both variants, and inside a whole network run. If the minimum exceeds the window the initial value is returned for ever."
  },
  {
   "property": "C24",
   "status": "proved",
   "theorems": [
    "C24_threshold_ratchet",
    "C24_threshold_never_releases",
    "C24_threshold_plain",
    "C24_multi_threshold_ratchet",
    "C24_multi_threshold_plain",
    "C24_first_met_unique",
    "C24_switch"
   ],
   "note": "Threshold, multi-threshold and asymmetric switch over every history."
  },
  {
   "property": "C25",
   "status": "proved",
   "theorems": [
    "C25_index_counts_curves_above",
    "C25_index_is_the_zone",
    "C25_index_monotone",
    "C25_value_of_the_zone",
    "C25_missing_value_is_an_error",
    "C25_lower_curves_not_read"
   ],
   "note": ""
  },
  {
   "property": "C26",
   "status": "proved",
   "theorems": [
    "C26_between_and_on_the_line",
    "C26_exact_at_curves",
    "C26_exact_when_full",
    "C26_exact_when_empty",
    "C26_monotone",
    "C26_piecewise",
    "C26_too_few_values_refuted",
    "C26_narrow_zone_not_on_the_line_refuted"
   ],
   "note": "Refutations record the panic with too few values and the jump within zones narrower than the tolerance."
  },
  {
   "property": "C27",
   "status": "proved",
   "theorems": [
    "C27_exact_at_points",
    "C27_between_points",
    "C27_below_the_range",
    "C27_above_the_range",
    "C27_too_few_points",
    "C27_disorder_reported",
    "C27_disorder_unnoticed_refuted"
   ],
   "note": ""
  },
  {
   "property": "C28",
   "status": "proved",
   "theorems": [
    "C28_shares",
    "C28_volumes_between_curves"
   ],
   "note": ""
  },
  {
   "property": "C29",
   "status": "partial",
   "theorems": [
    "C29_daily",
    "C29_daily_from_file",
    "C29_diurnal",
    "C29_weekly_lengths",
    "C29_weekly",
    "C29_monthly",
    "C29_weekly_between",
    "C29_monthly_first_between",
    "C29_monthly_last_between_partial",
    "C29_monthly_last_overshoots_refuted",
    "C29_same_day_every_year_partial",
    "C29_february_differs_refuted"
   ],
   "note": "The code breaks the rest: a monthly profile interpolated to the last day goes beyond the month's value after midnight on the last day, and interpolated Februaries differ between leap and other years. Both are proved as refutations."
  },
  {
   "property": "C30",
   "status": "partial",
   "theorems": [
    "C30_uniform_after_february",
    "C30_falls_evenly",
    "C30_range",
    "C30_uniform_early_reset_partial",
    "C30_early_reset_a_day_ahead",
    "C30_falls_evenly_refuted",
    "C30_residual_wraps_refuted",
    "C30_from_file"
   ],
   "note": "Proved in full for resets from 1 March; for resets in January and February the code is one day ahead from 1 March of years that are not leap years (proved)."
  },
  {
   "property": "C31",
   "status": "proved",
   "theorems": [
    "C31_periods_cover_their_values",
    "C31_contiguous",
    "C31_calendar_boundaries",
    "C31_means_conserve",
    "C31_sums_conserve",
    "C31_never_panics",
    "C31_short_steps",
    "C31_long_step_refuted",
    "C31_sum_of_cut_value_refuted",
    "C31_negative_days_refuted"
   ],
   "note": "Refutations record that steps over several period starts panic, that sums count a cut value twice and that negative day counts never end."
  },
  {
   "property": "C32",
   "status": "partial",
   "theorems": [
    "C32_flat_final_partial",
    "C32_unending_final_partial",
    "C32_nested_unending_final_partial",
    "C32_final_duration_refuted",
    "C32_completed_parent_lost_refuted",
    "C32_single_child_value_refuted"
   ],
   "note": "The final value of a flat or run-long aggregator contains every value held back; the code violates the rest: the final duration is always too short, and periodic parents lose values at the end."
  },
  {
   "property": "C33",
   "status": "proved",
   "theorems": [
    "C33_order_f64",
    "C33_order_periods",
    "C33_order_u64",
    "C33_order_u64_checked_refuted",
    "C33_sum",
    "C33_product",
    "C33_mean",
    "C33_mean_between",
    "C33_min_attained",
    "C33_max_attained",
    "C33_count_non_zero",
    "C33_count_func",
    "C33_any_non_zero",
    "C33_empty",
    "C33_empty_u64",
    "C33_periods_mean",
    "C33_periods_mean_none",
    "C33_periods_mean_between",
    "C33_periods_mean_equal",
    "C33_periods_other",
    "C33_u64_sum",
    "C33_u64_product",
    "C33_u64_product_zero",
    "C33_u64_min_max",
    "C33_u64_any_all"
   ],
   "note": "Exact arithmetic. Integer products in a build with overflow checks panic or not depending on the order when a zero is present (C33_order_u64_checked_refuted)."
  },
  {
   "property": "C34",
   "status": "proved",
   "theorems": [
    "C34_stores_every_step",
    "C34_stores_every_period",
    "C34_one_entry_per_scenario",
    "C34_recording_succeeds",
    "C34_no_metrics_refuted",
    "C34_long_export",
    "C34_sum_orders_agree",
    "C34_mixed_orders_differ_refuted"
   ],
   "note": "The metric_set column of the export holds the recorder's name, as in the code; a metric set without metrics panics."
  },
  {
   "property": "C35",
   "status": "proved",
   "theorems": [
    "C35_build",
    "C35_step",
    "C35_run",
    "C35_never_panics"
   ],
   "note": "Building and stepping of a single network, metric resolution and evaluation are parameters of the theorems; transfers, relative indices, states and the run loop are modelled. On a first step without an initial value, a network listed later supplies the metric of its set-up state."
  },
  {
   "property": "C36",
   "status": "proved",
   "theorems": [
    "C36_parallel_step",
    "C36_parallel_run",
    "C36_runs_end",
    "C36_multi_scenario_step",
    "C36_selection",
    "C36_selection_renumbered"
   ],
   "note": "The work on one scenario is a list of abstract operations on that scenario's data only, as the borrow rules guarantee; schedules are arbitrary interleavings. Errors become panics in parallel steps. The multi-scenario solver is assumed to solve scenarios separately."
  },
  {
   "property": "C37",
   "status": "proved",
   "theorems": [
    "C37_nodes_as_declared",
    "C37_edges_as_declared",
    "C37_names_resolve",
    "C37_references_as_declared",
    "C37_built_well_formed",
    "C37_builds_iff_valid"
   ],
   "note": "NetworkBuilder::build for nodes, edges, aggregated nodes and virtual storages; metrics are taken as already resolved."
  },
  {
   "property": "C38",
   "status": "partial",
   "theorems": [
    "C38_constant_proportions",
    "C38_constant_ratios",
    "C38_constant_coefficients",
    "C38_dynamic_proportions_partial",
    "C38_dynamic_ratios_partial",
    "C38_dynamic_coefficients_partial",
    "C38_invalid_factors_rejected_refuted",
    "C38_dynamic_storage_refuted",
    "C38_dynamic_shared_row_refuted",
    "C38_dynamic_rhs_refuted"
   ],
   "note": "constant factors in full; varying factors when the groups share no decision variable and hold no storage; the remaining cases are refuted by witnesses"
  },
  {
   "property": "C39",
   "status": "partial",
   "theorems": [
    "C39_at_most_max_active",
    "C39_at_least_min_active_partial",
    "C39_member_limits",
    "C39_dynamic_limits_refuted",
    "C39_min_active_refuted"
   ],
   "note": "constant limits: upper count in full, lower count when minimum flows are not 0; refuted for varying limits and for zero minimum flows"
  },
  {
   "property": "C40",
   "status": "partial",
   "theorems": [
    "C40_loss_link",
    "C40_no_loss_factor",
    "C40_varying_loss_partial",
    "C40_factor_one_ignored_refuted"
   ],
   "note": "Constant factors: proved. Factors that vary: proved when the aggregated node does not share a row variable with another (see C38). A gross factor of 1 or more is ignored (refuted)."
  },
  {
   "property": "C41",
   "status": "partial",
   "theorems": [
    "C41_split_against_bypass_partial",
    "C41_one_split",
    "C41_two_splits_refuted"
   ],
   "note": "One split: proved. Two or more: each split is proportional to the bypass only, so the configured shares are not met (refuted)."
  },
  {
   "property": "C42",
   "status": "partial",
   "theorems": [
    "C42_continuity",
    "C42_steady_start",
    "C42_steady_state",
    "C42_outflow_in_range",
    "C42_mass",
    "C42_river",
    "C42_river_mass",
    "C42_dry_reach_stays_dry",
    "C42_river_stays_dry",
    "C42_varying_weight_refuted"
   ],
   "note": "Proved for the parameter and for the river nodes of a model file when travel time and weight are constant. With varying ones the mass balance fails (refuted); the continuity equation of each step still holds"
  },
  {
   "property": "C43",
   "status": "proved",
   "theorems": [
    "C43_stores",
    "C43_capacities",
    "C43_minimum",
    "C43_initial",
    "C43_excess_is_dropped",
    "C43_unordered_curves_refuted",
    "C43_no_curves_cut_off_refuted"
   ],
   "note": "Ascending curves, as the property says. The code checks neither their order nor that the initial volume fits"
  },
  {
   "property": "C44",
   "status": "proved",
   "theorems": [
    "C44_every_pair_once",
    "C44_no_other_edges",
    "C44_edge_metric"
   ],
   "note": ""
  },
  {
   "property": "C45",
   "status": "partial",
   "theorems": [
    "C45_offset_clamped",
    "C45_no_offset",
    "C45_empty_is_an_error",
    "C45_never_outside",
    "C45_two_dimensions",
    "C45_scenario_column",
    "C45_huge_offset_refuted",
    "C45_vector"
   ],
   "note": "Proved for all arrays, steps and offsets whose sum fits in a signed 32-bit number; beyond that the code panics or, built without overflow checks, reads the wrong end (C45_huge_offset_refuted)."
  },
  {
   "property": "C46",
   "status": "partial",
   "theorems": [
    "C46_power",
    "C46_target",
    "C46_negative_target",
    "C46_minimum_head",
    "C46_limits",
    "C46_turbine",
    "C46_turbine_without_head",
    "C46_limits_always_refuted"
   ],
   "note": "The minimum flow is not respected at or below the minimum head, nor the maximum when it is below the minimum (refuted); everything else is proved, for the parameter and for turbine nodes"
  },
  {
   "property": "C47",
   "status": "partial",
   "theorems": [
    "C47_stays_in_range",
    "C47_reversed_bounds_panic",
    "C47_unit",
    "C47_rectifier",
    "C47_binary_step",
    "C47_logistic",
    "C47_logistic_monotone",
    "C47_one_scenario_only",
    "C47_all_scenarios",
    "C47_constants_can_be_set",
    "C47_wrong_number_of_values",
    "C47_constant_ignores_variables",
    "C47_constant_out_of_range_refuted",
    "C47_offset_panics_refuted",
    "C47_value_used"
   ],
   "note": "The stored value is always in range and scenarios and parameters are isolated; but the stored value never reaches the run: constants are computed once at set-up, and offset parameters have no state and panic. Logistic proved for any positive (monotone) function in place of exp."
  },
  {
   "property": "C48",
   "status": "partial",
   "theorems": [
    "C48_scalar_lookup_partial",
    "C48_index",
    "C48_not_an_index",
    "C48_vector_lookup",
    "C48_loads_partial",
    "C48_three_or_four_keys_refuted",
    "C48_other_layouts",
    "C48_no_value_panics_refuted",
    "C48_repeated_key",
    "C48_collection",
    "C48_reference_partial"
   ],
   "note": "Proved for array tables with one to four keys and scalar tables with one or two keys by row or column or up to two of each. False for scalar tables with three or four keys: the code loads them as two-key tables (C48_three_or_four_keys_refuted, for every file). A table without values panics."
  },
  {
   "property": "C49",
   "status": "partial",
   "theorems": [
    "C49_mrf_route",
    "C49_bypass_costs_nothing",
    "C49_bypass_cost_is_lower_limit",
    "C49_bypass_cost_refuted"
   ],
   "note": "The mrf limit and cost are proved; the bypass cost is never charged and is used as a lower limit of the mrf route (refuted)."
  },
  {
   "property": "C50",
   "status": "proved",
   "theorems": [
    "C50_proportional_volume",
    "C50_between_zero_and_one",
    "C50_single_store",
    "C50_volume_is_total",
    "C50_store_proportional",
    "C50_virtual_storage_proportional"
   ],
   "note": ""
  },
  {
   "property": "C51",
   "status": "partial",
   "theorems": [
    "C51_through_the_points",
    "C51_total_and_periodic",
    "C51_conflicting_points_panic",
    "C51_set_values",
    "C51_set_days",
    "C51_day_bounds",
    "C51_ordinal_day_refuted",
    "C51_all_functions",
    "C51_cyclic",
    "C51_set_days_of_scenario",
    "C51_set_days_everywhere",
    "C51_days_refused",
    "C51_days_of_profile",
    "C51_thin_plate_refuted",
    "C51_function_values",
    "C51_epsilon",
    "C51_function_loaded"
   ],
   "note": "The profile passes through its points, with all functions but the thin plate spline, but counting 1 January as day 0, one day later than the ordinal day; conflicting points panic instead of being reported. A thin plate spline is NaN on the days of its points. Assumes the linear solver answers only with solutions. The theorems of Props_Radial.v are over the real numbers of the standard library (axioms sig_forall_dec, sig_not_dec, functional_extensionality_dep, classic)."
  },
  {
   "property": "C52",
   "status": "partial",
   "theorems": [
    "C52_hard_limits_partial",
    "C52_soft_min",
    "C52_soft_max",
    "C52_soft_max_cannot_be_exceeded",
    "C52_hard_max_lost_refuted"
   ],
   "note": "At most one soft constraint: proved. With both, the soft maximum replaces the hard maximum (refuted)."
  },
  {
   "property": "C53",
   "status": "partial",
   "theorems": [
    "C53_river_loss",
    "C53_plain_river",
    "C53_routed_loss",
    "C53_varying_loss_partial"
   ],
   "note": "Constant factors, and varying factors for rivers without routing whose loss shares no row variable with another aggregated node. For a river with loss and routing the reported outflow includes the loss (proved in C53_routed_loss); that it should equal what its edges carry is refuted in C58_routed_loss_refuted."
  },
  {
   "property": "C54",
   "status": "partial",
   "theorems": [
    "C54_treatment_works",
    "C54_varying_loss_partial"
   ],
   "note": "Balance, limits, allowance and costs: proved for every treatment works; the loss for constant factors, and for varying factors when the aggregated node shares no row variable with another (see C38)."
  },
  {
   "property": "C55",
   "status": "proved",
   "theorems": [
    "C55_catchment",
    "C55_abstraction",
    "C55_abstraction_slot"
   ],
   "note": "Parts that are members of a mutually exclusive set are excluded by hypothesis (their bounds are proved separately in C39_member_limits)."
  },
  {
   "property": "C56",
   "status": "partial",
   "theorems": [
    "C56_others_build",
    "C56_attached_flows",
    "C56_surface",
    "C56_area_needed",
    "C56_evaporation_never_builds"
   ],
   "note": "Every combination without evaporation builds; a reservoir with evaporation can never be built because the evaporation part is created as an input (refutes that part of the claim)."
  },
  {
   "property": "C57",
   "status": "proved",
   "theorems": [
    "C57_names_never_collide",
    "C57_parts_belong_to_nodes"
   ],
   "note": "All node types of the model."
  },
  {
   "property": "C58",
   "status": "partial",
   "theorems": [
    "C58_inflow_is_total_of_edges",
    "C58_outflow_is_total_of_edges",
    "C58_routed_loss_refuted"
   ],
   "note": "Proved for every node kind; the outflow of a river with loss and routing is refuted."
  },
  {
   "property": "C59",
   "status": "proved",
   "theorems": [
    "C59_delay",
    "C59_zero_delay_never_runs"
   ],
   "note": "For positive delays; a delay of zero is accepted and fails in the first step"
  },
  {
   "property": "C60",
   "status": "partial",
   "theorems": [
    "C60_aligned_partial",
    "C60_accepted",
    "C60_months_refuted",
    "C60_off_the_grid_refuted",
    "C60_missing_day_panics_refuted"
   ],
   "note": "Proved for time-steps of a fixed length in hours or days and data whose spacing is the step, finer, or a multiple of it, including that evenly spaced data that covers the time-steps is accepted. False for calendar steps (months), and for coarser data whose spacing is not a multiple of the step; uneven data panics."
  },
  {
   "property": "C61",
   "status": "partial",
   "theorems": [
    "C61_data_sets",
    "C61_column_partial",
    "C61_scenario_partial",
    "C61_value_at_date",
    "C61_column_named_like_group_refuted",
    "C61_index_then_value_refuted"
   ],
   "note": "Proved, down to the value at a date, when no other reference asks for the same name in the same data set as another kind (column or scenario group) or another use (value or index). False otherwise: the first reference's data is used for both."
  },
  {
   "property": "C62",
   "status": "proved",
   "theorems": [
    "C62_direct_solve",
    "C62_newton_step",
    "C62_stays_positive",
    "C62_gaps_shrink"
   ],
   "note": "Over the real numbers of the standard library (axioms sig_forall_dec, sig_not_dec, functional_extensionality_dep); no rounding. Convergence is not claimed."
  },
  {
   "property": "C63",
   "status": "proved",
   "theorems": [
    "C63_near_optimal"
   ],
   "note": "Over the real numbers of the standard library (axioms sig_forall_dec, sig_not_dec, functional_extensionality_dep); no rounding. "
  },
  {
   "property": "C64",
   "status": "proved",
   "theorems": [
    "C64_lanes_independent",
    "C64_buffers_do_not_matter"
   ],
   "note": "Over the real numbers of the standard library (axioms sig_forall_dec, sig_not_dec, functional_extensionality_dep); no rounding. "
  },
  {
   "property": "C65",
   "status": "partial",
   "theorems": [
    "C65_programme_well_posed",
    "C65_near_best",
    "C65_scenarios_independent",
    "C65_minimum_flow_ignored_refuted"
   ],
   "note": "Minimum flows (and aggregated nodes) make no difference to this solver: C65_minimum_flow_ignored_refuted. The rest of the statement is proved for networks without a closed group of links and with an edge at every storage; the loop may also end in a panic. Over the real numbers of the standard library (axioms sig_forall_dec, sig_not_dec, functional_extensionality_dep); no rounding."
  },
  {
   "property": "C66",
   "status": "partial",
   "theorems": [
    "C66_wide_csv",
    "C66_long_csv",
    "C66_decimal_places",
    "C66_hdf5_partial",
    "C66_zero_places_refuted",
    "C66_hdf5_aggregation_refuted",
    "C66_hdf5_names_refuted",
    "C66_empty_set_refuted"
   ],
   "note": "Proved for both CSV formats, and for HDF5 with the values of the metrics in each time-step. Refuted parts: HDF5 ignores the aggregator of its metric set; two metrics of one name and attribute, or a node called time, make the HDF5 set-up fail; decimal_places 0 means no rounding; a metric set without metrics makes the wide CSV recorder panic. How numbers and dates are printed is a parameter of the model."
  },
  {
   "property": "C67",
   "status": "partial",
   "theorems": [
    "C67_aggregated_limits",
    "C67_proportions_partial",
    "C67_ratios_partial",
    "C67_coefficients_partial",
    "C67_exclusive_max_partial",
    "C67_exclusive_min_partial",
    "C67_reported_flow_partial",
    "C67_virtual_storage_partial",
    "C67_resets",
    "C67_window_days",
    "C67_rolling_window_partial",
    "C67_aggregated_storage",
    "C67_reported_outflow_refuted",
    "C67_factors_refuted"
   ],
   "note": "Limits, resets and aggregated storages are proved in full. Relationships hold under the conditions of C38 and C39 (constant or separate factors, constant limits). Reported flows are the total unless a reference is a source (inflow) or a sink (outflow); by default outputs report 0 (refuted). Virtual storage use is proved without factors and for references to nodes of one part; with several parts the factors are matched with the wrong nodes (refuted). Rolling windows as in C18."
  },
  {
   "property": "C68",
   "status": "partial",
   "theorems": [
    "C68_listed_then_filters",
    "C68_every_component_once",
    "C68_labels_tell_apart",
    "C68_accepted",
    "C68_entry_accepted",
    "C68_aggregator",
    "C68_edge_labels_refuted"
   ],
   "note": "Proved for every model file, list and combination of filters. One part is false of the code: the label of an edge names the kind of slot but not which slot, so two edges between the same nodes from different slots are recorded under one label (C68_edge_labels_refuted); the theorems on uniqueness assume that edge labels differ when edges are filtered. Not modelled: Python parameters' keys and Python aggregation functions."
  },
  {
   "property": "C69",
   "status": "partial",
   "theorems": [
    "C69_names_unique",
    "C69_nothing_lost",
    "C69_nothing_invented",
    "C69_completes",
    "C69_same_name_refuted",
    "C69_series_replaced_refuted",
    "C69_virtual_reference_refuted",
    "C69_control_curve_refuted"
   ],
   "note": "Proved for files whose names are used once and apart (tidy); the refuted theorems show files outside it for which the conversion loses or duplicates something without an error. Types of node and parameter are their values in order of conversion; what each type does with the rest of its attributes is not modelled."
  },
  {
   "property": "C70",
   "status": "partial",
   "theorems": [
    "C70_values_partial",
    "C70_loads_partial",
    "C70_registered_partial",
    "C70_names_partial",
    "C70_local_reference_refuted",
    "C70_threshold_clash_refuted",
    "C70_multi_threshold_refuted",
    "C70_virtual_node_refuted"
   ],
   "note": "Proved for all parameters of nodes and of the network; partial because the code looks for local parameters only in some types, registers some thresholds in a wrong scope and never adds the parameters of virtual nodes (each shown by a refutation)."
  },
  {
   "property": "C71",
   "status": "partial",
   "theorems": [
    "C71_features",
    "C71_asks_the_networks_problem_partial",
    "C71_steps_reach_the_library_partial",
    "C71_flows_are_optimal",
    "C71_flows_are_solutions",
    "C71_cbc_exclusive_refuted",
    "C71_highs_coefficients_refuted",
    "C71_microlp_panics_refuted",
    "C71_cbc_status_refuted"
   ],
   "note": "The feature check is exact, and after any history the library of each solver holds the network's programme: for HiGHS with coefficients of at most 1e10, for microlp with bounds inside the number range. Every step reaches the library, for CBC if exclusive sets have constant limits and for microlp if no lower bound exceeds the upper one. The restrictions are necessary: the four refutations show what the code does outside them. Flows are optimal given a library that says optimal only of optimal values."
  },
  {
   "property": "C72",
   "status": "partial",
   "theorems": [
    "C72_scenarios_of_file",
    "C72_file_accepted",
    "C72_combinations_of_file",
    "C72_no_scenarios",
    "C72_v1_nothing_lost",
    "C72_v1_reported",
    "C72_v1_scenarios_partial",
    "C72_v1_combinations",
    "C72_v1_time",
    "C72_v1_single_argument_refuted",
    "C72_v1_panics_refuted",
    "C72_missing_index_refuted"
   ],
   "note": "Proved for all files and conversions except where the code does something else, shown by the refutations: v1 slices of one argument are dropped, step 0 and 0 days panic, indices beyond the group are silently left out."
  },
  {
   "property": "C73",
   "status": "partial",
   "theorems": [
    "C73_networks",
    "C73_run",
    "C73_accepted",
    "C73_validate_partial",
    "C73_validate_refuted"
   ],
   "note": "Networks, transfers, runs and acceptance are proved in full; validation only for networks written in the file, because networks given by path are not validated (refutation)."
  },
  {
   "property": "C74",
   "status": "partial",
   "theorems": [
    "C74_metrics_partial",
    "C74_node_references",
    "C74_paths_partial",
    "C74_rename",
    "C74_document",
    "C74_fixed_array_refuted",
    "C74_paths_refuted"
   ],
   "note": "Node references are proved in full (with renaming). Metrics: all but those in arrays of fixed length. Paths: all in nodes, parameters, time series and outputs. The rest is missed by the code (refutations)."
  },
  {
   "property": "C75",
   "status": "partial",
   "theorems": [
    "C75_arguments_partial",
    "C75_scenarios",
    "C75_independent",
    "C75_function",
    "C75_phases",
    "C75_large_integer_refuted",
    "C75_shared_arguments_refuted",
    "C75_kept_info_refuted"
   ],
   "note": "Partial because the code shares the argument objects between scenarios and turns integers beyond i64 into floats, so these parts are refuted. Proved for every class whose objects keep to themselves, any schedule, any metrics; C75_independent leaves out dictionary results, which are maps and are equal only in what is read from them (C75_scenarios covers them)."
  },
  {
   "property": "C76",
   "status": "partial",
   "theorems": [
    "C76_setup",
    "C76_same_flows",
    "C76_schedules_do_not_matter",
    "C76_near_best",
    "C76_few_scenarios_refuted"
   ],
   "note": "Partial because the single precision solver panics when there are fewer scenarios than chunks (C76_few_scenarios_refuted). The rest is proved for every schedule, chunk number, first contents of the buffers and history, in real arithmetic."
  },
  {
   "property": "C77",
   "status": "partial",
   "theorems": [
    "C77_accepted",
    "C77_independent",
    "C77_memory",
    "C77_no_other_results",
    "C77_wide_csv",
    "C77_long_csv",
    "C77_hdf5",
    "C77_value_partial",
    "C77_exchanged_refuted",
    "C77_time_function_refuted",
    "C77_wrong_value_refuted",
    "C77_same_name_refuted",
    "C77_dataframe_set_refuted",
    "C77_no_value",
    "C77_dataframe"
   ],
   "note": "Partial because the code exchanges the functions over time and over scenarios of a memory output (C77_exchanged_refuted): the single value is as asked only when they are the same (C77_value_partial). A later memory output of the same name also replaces an earlier one (C77_same_name_refuted). The rest is proved."
  },
  {
   "property": "C78",
   "status": "partial",
   "theorems": [
    "C78_round_trip",
    "C78_typed",
    "C78_file_round_trip",
    "C78_written_apart",
    "C78_fuel",
    "C78_same_partial",
    "C78_unknown_refused",
    "C78_strict",
    "C78_misspelt_scenarios_refuted",
    "C78_misspelt_slot_refuted",
    "C78_ignored_member_refuted",
    "C78_same_refuted"
   ],
   "note": "Partial because some objects of the format ignore members they do not know (C78_same_refuted): C78_same_partial lists them and shows that nothing else gets lost. The round trip is proved without exception for trees; the text of JSON is not modelled."
  },
  {
   "property": "C79",
   "status": "partial",
   "theorems": [
    "C79_safe",
    "C79_same_problem",
    "C79_flows_in_range",
    "C79_released_partial",
    "C79_highs_released_refuted",
    "C79_optimal_read"
   ],
   "note": "Memory safety is proved for all three libraries. Partial because the HiGHS object is never given back (C79_highs_released_refuted); C79_released_partial shows that the others are."
  },
  {
   "property": "C80",
   "status": "partial",
   "theorems": [
    "C80_command_line",
    "C80_command_line_multi_partial",
    "C80_multi_threads_refuted",
    "C80_python_options",
    "C80_keywords_removed",
    "C80_same_dictionary_refuted",
    "C80_opencl_keywords_refuted",
    "C80_names",
    "C80_names_refuted",
    "C80_same_run",
    "C80_run_from_path",
    "C80_stepping",
    "C80_convert_file",
    "C80_convert_directory",
    "C80_unread_entry_refuted"
   ],
   "note": "Proved for the run command, for four solvers in Python, for stepping by hand and for converting files. Partial because run-multi drops the number of threads, a Python call empties its caller's dictionary, the OpenCL solvers ignore keywords and three solvers have no common name, and unreadable directory entries are passed over (each refuted)."
  },
  {
   "property": "C81",
   "status": "partial",
   "theorems": [
    "C81_volume_in_limits",
    "C81_within_accepted",
    "C81_limits_suffice_partial",
    "C81_large_storage_refuted",
    "C81_nan_volume_refuted",
    "C81_virtual_limits",
    "C81_initial_volume",
    "C81_interpolate_ends",
    "C81_interpolate_close_partial",
    "C81_interpolate_order_partial",
    "C81_interpolate_range_refuted",
    "C81_extremes",
    "C81_largest",
    "C81_exact_bounds",
    "C81_period_extremes",
    "C81_sum_close_partial",
    "C81_mean_close_partial",
    "C81_sum_order_refuted",
    "C81_threshold",
    "C81_equal_infinite_refuted",
    "C81_whole_days",
    "C81_limits_close_partial",
    "C81_initial_volume_close_partial",
    "C81_whole_numbers",
    "C81_counts",
    "C81_nan_values"
   ],
   "note": "Volumes within limits, extremes, predicates, initial volumes, limits of virtual storages and whole days are proved for all doubles, the counting functions and sums, products and volumes of whole numbers are exact, and values that are not numbers are refused. Partial because large storages trip the mass-balance check, a NaN volume passes it, interpolated values and means can leave their range and sums depend on the order (each refuted); the _partial theorems give the sizes up to which the limits suffice and bounds on the errors."
  },
  {
   "property": "C82",
   "status": "partial",
   "theorems": [
    "C82_checksum",
    "C82_capitals_refuted",
    "C82_table",
    "C82_table_checked_partial",
    "C82_changed_between_refuted",
    "C82_tables",
    "C82_polars",
    "C82_parquet_refuted",
    "C82_pandas",
    "C82_series",
    "C82_place",
    "C82_v1_checksum",
    "C82_v1_checksum_lost_refuted",
    "C82_v1_index_partial",
    "C82_v1_index_number_refuted",
    "C82_v1_parse_dates_refuted",
    "C82_array",
    "C82_array_scenario",
    "C82_array_columns_refuted",
    "C82_array_no_column_refuted"
   ],
   "note": "Where each file is looked for, when it is accepted, and what is loaded from it are proved as equivalences for all contents, readers and digests. Partial because the check and the reading open the file separately, capital letters in a hash are refused, parquet panics, and checksums, numbered index columns and columns of arrays are dropped in silence (each refuted)."
  },
  {
   "property": "C83",
   "status": "partial",
   "theorems": [
    "C83_parameters_partial",
    "C83_accepted",
    "C83_reported",
    "C83_rbf",
    "C83_bare_curve_refuted",
    "C83_of_virtual_refuted",
    "C83_curve_error_refuted",
    "C83_both_given_refuted",
    "C83_year_refuted",
    "C83_nodes",
    "C83_nodes_accepted",
    "C83_nodes_reported_partial",
    "C83_nodes_reported_refuted",
    "C83_split_edges_refuted",
    "C83_steps_dropped_refuted",
    "C83_delay_days_refuted",
    "C83_two_volumes_refuted"
   ],
   "note": "Meaning, acceptance and errors are proved for every modelled type. Partial because virtual storages, split slots, surplus steps and points, days of delays and some second attributes are lost, and three errors name the wrong attribute (each refuted). RBF profiles are compared by their points and function, not by their values."
  },
  {
   "property": "C84",
   "status": "partial",
   "theorems": [
    "C84_equations_partial",
    "C84_file_partial",
    "C84_accepted_partial",
    "C84_offset_refuted",
    "C84_delay_zero_refuted"
   ],
   "note": "Proved for every type of parameter that C70 loads, in any network with any other parameters, nodes and solver. Partial because an offset parameter never completes a time-step and a delay of zero depends on the implementation (each refuted), and because networks that refer to the maximum flow of a node are excluded (C19) and what a metric with the return value 'after or initial' reads is left open. The table of metric resolution used here refuses an integer metric that asks for another value than that before the solve of a constant or simple parameter; the code accepts it (C21_shared_table_exact delimits the difference), so such metrics are outside what is proved."
  },
  {
   "property": "C85",
   "status": "partial",
   "theorems": [
    "C85_file_partial",
    "C85_recorded_partial",
    "C85_limits",
    "C85_flows",
    "C85_storage",
    "C85_proportion",
    "C85_aggregated",
    "C85_licence"
   ],
   "note": "Proved for every network, solver that returns feasible solutions, and file with the parameters of C70. Partial for the reasons of C70 and C84 (a multi-valued parameter of a node, an offset parameter, a delay of zero), and because nodes that are in mutually exclusive sets and metrics of a node's maximum flow are not covered by the statements about nodes."
  },
  {
   "property": "C86",
   "status": "proved",
   "theorems": [
    "C86_run",
    "C86_delay_recorded",
    "C86_muskingum_recorded",
    "C86_turbine_recorded"
   ],
   "note": "Proved for every network, solver that returns feasible solutions, delay and initial value. That the parameters of the file and of its nodes are in the network, and the numbering of the metrics of the nodes, are premises."
  },
  {
   "property": "C87",
   "status": "partial",
   "theorems": [
    "C87_deficit_partial",
    "C87_moving_limit",
    "C87_moving_limit_refuted"
   ],
   "note": "Proved for maximum flows that are numbers or values of parameters before the solve. Refuted for those that are flows of other nodes: the limit in force is the flow of the time-step before, the deficit is counted from the flow of the present one. That the parameter is in the network is a premise (asked_deficit says which it is)."
  },
  {
   "property": "C88",
   "status": "partial",
   "theorems": [
    "C88_recorders_partial",
    "C88_error_named",
    "C88_short_run_refuted"
   ],
   "note": "The equivalence and what arrays hold are proved in full. That nothing else is expected of the run is refuted: expected values beyond the last time-step go unnoticed."
  },
  {
   "property": "C89",
   "status": "partial",
   "theorems": [
    "C89_storage_built",
    "C89_virtual_storage_built",
    "C89_flow_limits",
    "C89_relationship",
    "C89_storage_error",
    "C89_virtual_storage_error_partial",
    "C89_wrong_attribute_refuted"
   ],
   "note": "What is built is proved in full. Errors name the attribute at fault except for the minimum volume of a virtual storage, for which the code names max_volume. Whether edges and member nodes are found is in C37's model (NetworkBuild.v)."
  }
 ]
}