{
 "claims": [
  {
   "property": "C01",
   "status": "proved",
   "theorems": [
    "C01_sum_of_parts",
    "C01_none_params_refuted"
   ],
   "note": "For every carrier and arbitrary model records. Also proved: composites reject the parameter value None."
  },
  {
   "property": "C02",
   "status": "proved",
   "theorems": [
    "C02_product_of_parts"
   ],
   "note": ""
  },
  {
   "property": "C03",
   "status": "proved",
   "theorems": [
    "C03_n_params",
    "C03_guess_and_bounds_sized",
    "C03_shipped_models",
    "C03_ramp_three_samples_refuted",
    "C03_wrong_number",
    "C03_season_number",
    "C03_no_dates"
   ],
   "note": "Every composite of shipped models, random draws arbitrary; needs 4 distinct x values (with 3 samples the ramp raises IndexError, shown)."
  },
  {
   "property": "C04",
   "status": "proved",
   "theorems": [
    "C04_null_disappears",
    "C04_only_nulls",
    "C04_null_test"
   ],
   "note": ""
  },
  {
   "property": "C05",
   "status": "proved",
   "theorems": [
    "C05_names_identify",
    "C05_operator_in_name_refuted",
    "C05_name_only"
   ],
   "note": ""
  },
  {
   "property": "C06",
   "status": "proved",
   "theorems": [
    "C06_accept_iff_parts",
    "C06_reject_iff_raises",
    "C06_order_irrelevant",
    "C06_other_exceptions_propagate",
    "C06_false_does_not_reject_refuted",
    "C06_decay",
    "C06_decay_reals"
   ],
   "note": "Set iteration order is unspecified in Python; order independence is a separate theorem."
  },
  {
   "property": "C07",
   "status": "proved",
   "theorems": [
    "C07_cache_invisible",
    "C07_trend_models_blind",
    "C07_cache_prepared",
    "C07_same_name_refuted"
   ],
   "note": "Naive models are not leaves here: they reject any cache keyword."
  },
  {
   "property": "C08",
   "status": "proved",
   "theorems": [
    "C08_fixed_prediction",
    "C08_fixed_guess",
    "C08_fixed_bounds",
    "C08_accepted_iff",
    "C08_history_irrelevant",
    "C08_wrong_size_refuted"
   ],
   "note": "Wrong sizes: a single value is broadcast instead of refused (refuted theorem)."
  },
  {
   "property": "C09",
   "status": "proved",
   "theorems": [
    "C09_fixed_model",
    "C09_spike_ignored_refuted",
    "C09_fixed_step",
    "C09_fixed_spike"
   ],
   "note": "create_fixed_spike_ignored gives zeros when called in additive mode (refuted theorem states the exact values)."
  },
  {
   "property": "C10",
   "status": "proved",
   "theorems": [
    "C10_nothing_to_simplify",
    "C10_pinned",
    "C10_simplified",
    "C10_list_bounds_raise"
   ],
   "note": "Also shown: bounds given as lists raise TypeError."
  },
  {
   "property": "C11",
   "status": "proved",
   "theorems": [
    "C11_validate_iff",
    "C11_validate_size",
    "C11_shipped_guesses",
    "C11_month_guess",
    "C11_month_missing_refuted",
    "C11_sigmoid_step_refuted",
    "C11_ramp_duplicates_refuted",
    "C11_decay_guess",
    "C11_without_values",
    "C11_missing",
    "C11_no_samples",
    "C11_constant_guess",
    "C11_linear_guess",
    "C11_step_guess",
    "C11_spike_guess",
    "C11_ramp_guess",
    "C11_month_guess_content",
    "C11_fourier_guess",
    "C11_bounds_no_samples",
    "C11_missing_x"
   ],
   "note": "Holds for composites of shipped models on >= 4 samples with increasing x; refuted for sigmoid_step, ramp with repeated x, season_month with a missing month. The contents of every shipped guess are pinned down, with and without values."
  },
  {
   "property": "C12",
   "status": "proved",
   "theorems": [
    "C12_constant",
    "C12_linear",
    "C12_quasilinear",
    "C12_exponential",
    "C12_decay",
    "C12_step",
    "C12_two_steps",
    "C12_ramp",
    "C12_sigmoid",
    "C12_step_date",
    "C12_spike_date",
    "C12_spike",
    "C12_spike_fractional_refuted",
    "C12_one_value_per_sample",
    "C12_spike_fails"
   ],
   "note": "Spike holds for integer positions; with fractional ones the output may be too short (refuted theorem)."
  },
  {
   "property": "C13",
   "status": "proved",
   "theorems": [
    "C13_nondecreasing",
    "C13_decay",
    "C13_sigmoid",
    "C13_linear_ramp"
   ],
   "note": ""
  },
  {
   "property": "C14",
   "status": "proved",
   "theorems": [
    "C14_weekday_formula",
    "C14_weekly",
    "C14_accepted_iff",
    "C14_needs_dates"
   ],
   "note": ""
  },
  {
   "property": "C15",
   "status": "proved",
   "theorems": [
    "C15_month_formula",
    "C15_guess_shifted",
    "C15_guess_refuted"
   ],
   "note": "Formula proved; the guess is shifted by one month (refuted theorem)."
  },
  {
   "property": "C16",
   "status": "proved",
   "theorems": [
    "C16_fourier_formula",
    "C16_period",
    "C16_linear_in_parameters"
   ],
   "note": ""
  },
  {
   "property": "C17",
   "status": "proved",
   "theorems": [
    "C17_numeric_list",
    "C17_date_list",
    "C17_membership",
    "C17_empty_list_refused",
    "C17_bad_mask_refused",
    "C17_date_function",
    "C17_factor_refuted",
    "C17_shipped"
   ],
   "note": "Exact effect proved; documented multiplicative factor A is A+1 in the code (refuted theorem)."
  },
  {
   "property": "C18",
   "status": "proved",
   "theorems": [
    "C18_may_holidays",
    "C18_august",
    "C18_august_refuted",
    "C18_christmas_uk",
    "C18_christmas_ita",
    "C18_easter",
    "C18_easter_holidays",
    "C18_calendar_complete"
   ],
   "note": "August rule gives the last Monday except when 31 August is a Monday (2015); exact condition proved."
  },
  {
   "property": "C19",
   "status": "proved",
   "theorems": [
    "C19_calendars",
    "C19_no_calendar_refused",
    "C19_calendar_membership",
    "C19_datelists",
    "C19_datelists_refused",
    "C19_parameter_is_local",
    "C19_guess_not_neutral_refuted"
   ],
   "note": "Guess neutral only in additive mode; doubles in multiplicative mode (exact statement proved)."
  },
  {
   "property": "C20",
   "status": "proved",
   "theorems": [
    "C20_naive",
    "C20_reals_faithful",
    "C20_beyond_actuals",
    "C20_needs_actuals",
    "C20_repeated_position_refuted",
    "C20_lone_actual_is_null",
    "C20_doubles_faithful",
    "C20_fails"
   ],
   "note": "Any carrier that represents the positions faithfully (reals always). A lone actual at the last position is null there; with repeated positions a same-position actual leaks (both shown). Binary64 is such a carrier below 2^53 (C20_doubles_faithful)."
  },
  {
   "property": "C21",
   "status": "proved",
   "theorems": [
    "C21_snaive",
    "C21_in_order",
    "C21_gap_out_of_order_refuted",
    "C21_fails"
   ],
   "note": "Actuals sorted by x; request dates found in the actuals carry their x. With gaps in the actuals the output order differs from the request (refuted theorem)."
  },
  {
   "property": "C22",
   "status": "proved",
   "theorems": [
    "C22_set_only",
    "C22_cases",
    "C22_none",
    "C22_hour",
    "C22_week",
    "C22_month_start",
    "C22_month",
    "C22_quarter",
    "C22_year_start",
    "C22_year",
    "C22_other"
   ],
   "note": "Every row of the table, plus the case split showing the rows are exhaustive."
  },
  {
   "property": "C23",
   "status": "proved",
   "theorems": [
    "C23_month_days",
    "C23_hourly",
    "C23_daily",
    "C23_weekly",
    "C23_month_starts",
    "C23_month_ends",
    "C23_quarter_starts",
    "C23_quarter_ends",
    "C23_year_starts",
    "C23_year_ends"
   ],
   "note": "All starts and lengths; months, quarters and years through the calendar model."
  },
  {
   "property": "C24",
   "status": "proved",
   "theorems": [
    "C24_normalized_x",
    "C24_negative_iff"
   ],
   "note": "Negative x iff the row is dated before the Monday of the first row."
  },
  {
   "property": "C25",
   "status": "proved",
   "theorems": [
    "C25_fixed_grid",
    "C25_ties",
    "C25_month_grid",
    "C25_same_x",
    "C25_mid_month_refuted",
    "C25_scaling"
   ],
   "note": "The number of units is an exact rational (a float product in the code); end date exact to the microsecond rounding of timedelta. Month and year grids are characterised too; data on the 15th of months is missed (refuted theorem)."
  },
  {
   "property": "C26",
   "status": "proved",
   "theorems": [
    "C26_numeric_grid",
    "C26_size",
    "C26_same_x_iff",
    "C26_offset_refuted",
    "C26_last_actual_refuted"
   ],
   "note": "x fed to the model equals the fitted x iff the first x is 0; both defects shown on concrete series."
  },
  {
   "property": "C27",
   "status": "proved",
   "theorems": [
    "C27_weekday",
    "C27_quarter",
    "C27_type_error",
    "C27_fractional",
    "C27_none_is_weekly"
   ],
   "note": "AssertionError and TypeError conditions are equivalences."
  },
  {
   "property": "C28",
   "status": "proved",
   "theorems": [
    "C28_domain",
    "C28_formula",
    "C28_increasing_in_error",
    "C28_increasing_in_params",
    "C28_zero_one_param",
    "C28_zero_finite",
    "C28_zero_below",
    "C28_zero_params",
    "C28_zero_params_refuted"
   ],
   "note": "Real arithmetic with special values."
  },
  {
   "property": "C29",
   "status": "proved",
   "theorems": [
    "C29_underflow",
    "C29_short_series_score"
   ],
   "note": "Binary64 with the correctly rounded value of 10 ** -320 as the only hypothesis on libm; n below 2^53."
  },
  {
   "property": "C30",
   "status": "proved",
   "theorems": [
    "C30_none_iff",
    "C30_one_ninf",
    "C30_two_ninf",
    "C30_first_minimum",
    "C30_only_pinf",
    "C30_label_refuted"
   ],
   "note": "With only +inf and nulls the first position is returned, even a null one (separate theorem)."
  },
  {
   "property": "C31",
   "status": "proved",
   "theorems": [
    "C31_complete_unchanged",
    "C31_duplicates",
    "C31_numbers",
    "C31_dates",
    "C31_dates_x",
    "C31_dates_kept",
    "C31_grid",
    "C31_interpolate_y",
    "C31_interpolation"
   ],
   "note": "Reals for \"no row lost\"; the re-indexing theorem holds for every carrier in which the integer x convert exactly. Refuted witnesses for off-grid dates."
  },
  {
   "property": "C32",
   "status": "proved",
   "theorems": [
    "C32_array_prediction",
    "C32_scalar_prediction",
    "C32_nonnegative"
   ],
   "note": ""
  },
  {
   "property": "C33",
   "status": "proved",
   "theorems": [
    "C33_rows",
    "C33_empty",
    "C33_missing_y",
    "C33_idempotent",
    "C33_forecast"
   ],
   "note": "Purity of the input is by construction of the functional model; rows with null source are outside the model."
  },
  {
   "property": "C34",
   "status": "proved",
   "theorems": [
    "C34_sources_independent"
   ],
   "note": ""
  },
  {
   "property": "C35",
   "status": "proved",
   "theorems": [
    "C35_no_usable_samples",
    "C35_status",
    "C35_too_short",
    "C35_invalid",
    "C35_optimizer"
   ],
   "note": "For every carrier in which 0 < 0 is false, every optimizer behaviour. EMPTY_TS is unreachable: ValueError instead."
  },
  {
   "property": "C36",
   "status": "proved",
   "theorems": [
    "C36_length",
    "C36_check_unreachable"
   ],
   "note": ""
  },
  {
   "property": "C37",
   "status": "proved",
   "theorems": [
    "C37_ignored_samples",
    "C37_null_values"
   ],
   "note": "Whole metadata record except the recorded weight range (shown to change)."
  },
  {
   "property": "C38",
   "status": "proved",
   "theorems": [
    "C38_shared_weight",
    "C38_distinct",
    "C38_unit_total"
   ],
   "note": ""
  },
  {
   "property": "C39",
   "status": "proved",
   "theorems": [
    "C39_combinations",
    "C39_one_side"
   ],
   "note": ""
  },
  {
   "property": "C40",
   "status": "proved",
   "theorems": [
    "C40_default",
    "C40_add",
    "C40_mult",
    "C40_other_mode",
    "C40_set"
   ],
   "note": "With mode 'add' user lists with repeated names give repeated candidates (example)."
  },
  {
   "property": "C41",
   "status": "proved",
   "theorems": [
    "C41_best",
    "C41_sources"
   ],
   "note": "sort_values is any permutation in ascending order with null scores last, ties in any order; a stable sort is shown to be one."
  },
  {
   "property": "C42",
   "status": "proved",
   "theorems": [
    "C42_table",
    "C42_order",
    "C42_candidates",
    "C42_only_best",
    "C42_weights"
   ],
   "note": "Entries carry non-null samples of the extrapolation of the candidate; names of candidates in mode 'both' may repeat across the additive and multiplicative lists, which the theorem states."
  },
  {
   "property": "C43",
   "status": "proved",
   "theorems": [
    "C43_sources_alone",
    "C43_one_source",
    "C43_no_interference",
    "C43_empty",
    "C43_failure",
    "C43_part",
    "C43_single",
    "C43_absent"
   ],
   "note": "Also proved: a failing source fails the whole run."
  },
  {
   "property": "C44",
   "status": "proved",
   "theorems": [
    "C44_error",
    "C44_shape",
    "C44_inside",
    "C44_fences",
    "C44_quantile_unique",
    "C44_no_change",
    "C44_constant_increments",
    "C44_shift",
    "C44_scale",
    "C44_step_found",
    "C44_spike_found",
    "C44_ends",
    "C44_spared"
   ],
   "note": "Invariances and detection over the reals; shape, error and location of flags for every carrier. Refuted witness: undated sample at x = 0."
  },
  {
   "property": "C45",
   "status": "proved",
   "theorems": [
    "C45_weights",
    "C45_fitted",
    "C45_switched_off",
    "C45_left"
   ],
   "note": "Zero weights computed in the carrier; over XR exactly the spikes are excluded."
  },
  {
   "property": "C46",
   "status": "proved",
   "theorems": [
    "C46_ordered",
    "C46_statement",
    "C46_percentile",
    "C46_refused"
   ],
   "note": "Finite or null y; at least one simulation."
  },
  {
   "property": "C47",
   "status": "proved",
   "theorems": [
    "C47_partition",
    "C47_past_or_future",
    "C47_usable_dates",
    "C47_sources",
    "C47_one_source"
   ],
   "note": "Statement corrected: the forecast is dropped when it matches no usable actual (refuted witness)."
  },
  {
   "property": "C48",
   "status": "proved",
   "theorems": [
    "C48_rows",
    "C48_deviation",
    "C48_step",
    "C48_enough",
    "C48_drawn",
    "C48_residuals",
    "C48_centred"
   ],
   "note": ""
  },
  {
   "property": "C49",
   "status": "proved",
   "theorems": [
    "C49_days",
    "C49_step",
    "C49_step_of",
    "C49_period",
    "C49_no_frequency",
    "C49_no_frequency_several",
    "C49_no_period"
   ],
   "note": "Also: no widening period given raises AttributeError."
  },
  {
   "property": "C50",
   "status": "proved",
   "theorems": [
    "C50_grid",
    "C50_matplotlib",
    "C50_plotly",
    "C50_rows",
    "C50_sources",
    "C50_content",
    "C50_fails"
   ],
   "note": ""
  },
  {
   "property": "C51",
   "status": "proved",
   "theorems": [
    "C51_names",
    "C51_every_path_named",
    "C51_refused",
    "C51_accepted",
    "C51_distinct",
    "C51_contents",
    "C51_rejected_input"
   ],
   "note": "POSIX paths; file system predicates are arbitrary functions."
  },
  {
   "property": "C52",
   "status": "proved",
   "theorems": [
    "C52_requested",
    "C52_both"
   ],
   "note": ""
  },
  {
   "property": "C53",
   "status": "proved",
   "theorems": [
    "C53_hidden",
    "C53_shown",
    "C53_shared"
   ],
   "note": "Refuted witness for a shared position."
  },
  {
   "property": "C54",
   "status": "proved",
   "theorems": [
    "C54_actuals",
    "C54_fitted",
    "C54_ignored_without_dates",
    "C54_nothing_left"
   ],
   "note": "At the level of results of run_forecast_single."
  },
  {
   "property": "C55",
   "status": "proved",
   "theorems": [
    "C55_ramp",
    "C55_calendar",
    "C55_trend",
    "C55_naive"
   ],
   "note": ""
  },
  {
   "property": "C56",
   "status": "proved",
   "theorems": [
    "C56_exceptions",
    "C56_otherwise"
   ],
   "note": "The correlation itself is an oracle."
  },
  {
   "property": "C57",
   "status": "proved",
   "theorems": [
    "C57_fitting",
    "C57_composites",
    "C57_dates",
    "C57_numbers",
    "C57_numbers_from_zero"
   ],
   "note": "Holds for dates unless hourly and misaligned; refuted witnesses for hourly data and numeric x."
  },
  {
   "property": "C58",
   "status": "proved",
   "theorems": [
    "C58_short",
    "C58_models",
    "C58_candidate",
    "C58_forecast"
   ],
   "note": "Models that reject short parameter vectors: constant, linear, ramp, exp, decay, step, sigmoid and all composites of such."
  },
  {
   "property": "C59",
   "status": "proved",
   "theorems": [
    "C59_no_path",
    "C59_codes",
    "C59_sizes",
    "C59_default_size_refuted"
   ],
   "note": "A png with the default size (no width, no height) always raises TypeError (C59_default_size_refuted)."
  },
  {
   "property": "C60",
   "status": "proved",
   "theorems": [
    "C60_choice",
    "C60_line",
    "C60_scale",
    "C60_failure",
    "C60_bins",
    "C60_auto",
    "C60_short"
   ],
   "note": "Over extended reals; pandas one-pass variance rounding not modelled. Float examples for both answers."
  },
  {
   "property": "C61",
   "status": "proved",
   "theorems": [
    "C61_sum",
    "C61_product",
    "C61_scaled_refuted"
   ],
   "note": "positive for unscaled models; C61_scaled_refuted is the counterexample with a sigmoid"
  },
  {
   "property": "C62",
   "status": "proved",
   "theorems": [
    "C62_results",
    "C62_errors",
    "C62_nothing",
    "C62_tables",
    "C62_sources"
   ],
   "note": ""
  },
  {
   "property": "C63",
   "status": "proved",
   "theorems": [
    "C63_order",
    "C63_forecast",
    "C63_dates"
   ],
   "note": "C63_numbers_refuted and C63_ties_refuted are the counterexamples"
  },
  {
   "property": "C64",
   "status": "proved",
   "theorems": [
    "C64_dates",
    "C64_one_value"
   ],
   "note": ""
  },
  {
   "property": "C65",
   "status": "proved",
   "theorems": [
    "C65_exact",
    "C65_line",
    "C65_forecast"
   ],
   "note": ""
  },
  {
   "property": "C66",
   "status": "proved",
   "theorems": [
    "C66_normal_equations",
    "C66_constant",
    "C66_line",
    "C66_week"
   ],
   "note": ""
  },
  {
   "property": "C67",
   "status": "proved",
   "theorems": [
    "C67_metadata",
    "C67_labels",
    "C67_one_label_refuted",
    "C67_weights_shown"
   ],
   "note": "C67_one_label_refuted shows that actuals and forecasts never share source_long without weights"
  },
  {
   "property": "C68",
   "status": "proved",
   "theorems": [
    "C68_values",
    "C68_in_sample",
    "C68_models"
   ],
   "note": ""
  },
  {
   "property": "C69",
   "status": "proved",
   "theorems": [
    "C69_lists"
   ],
   "note": ""
  },
  {
   "property": "C70",
   "status": "proved",
   "theorems": [
    "C70_fit",
    "C70_start"
   ],
   "note": ""
  },
  {
   "property": "C71",
   "status": "proved",
   "theorems": [
    "C71_series",
    "C71_table",
    "C71_sturdy",
    "C71_masks",
    "C71_shipped"
   ],
   "note": "C71_conditions_needed and C71_years_needed show the exceptions when a condition is dropped"
  },
  {
   "property": "C72",
   "status": "proved",
   "theorems": [
    "C72_unique",
    "C72_superposition",
    "C72_predictions",
    "C72_units",
    "C72_score",
    "C72_regressions",
    "C72_determined",
    "C72_dummy",
    "C72_calendars",
    "C72_dates",
    "C72_sums",
    "C72_holidays_determined",
    "C72_shipped_calendars"
   ],
   "note": "C72_undetermined: a sum of a line and a constant is never determined"
  },
  {
   "property": "C73",
   "status": "proved",
   "theorems": [
    "C73_forecast",
    "C73_mode",
    "C73_intervals",
    "C73_candidates",
    "C73_levels",
    "C73_exact_refuted",
    "C73_masks",
    "C73_tables",
    "C73_sources"
   ],
   "note": "stated for runs that complete (C71 gives conditions); C73_exact_refuted shows why costs of zero are excluded"
  },
  {
   "property": "C74",
   "status": "proved",
   "theorems": [
    "C74_command",
    "C74_only",
    "C74_exit",
    "C74_order",
    "C74_default",
    "C74_no_input",
    "C74_options",
    "C74_help",
    "C74_negative",
    "C74_number_is_value",
    "C74_help"
   ],
   "note": "a lone -- is simplified, see the comment in Main.v"
  },
  {
   "property": "C75",
   "status": "proved",
   "theorems": [
    "C75_forecast",
    "C75_series",
    "C75_models",
    "C75_composed",
    "C75_month_refuted",
    "C75_monthly_refuted"
   ],
   "note": ""
  },
  {
   "property": "C76",
   "status": "proved",
   "theorems": [
    "C76_inputs",
    "C76_one",
    "C76_weights",
    "C76_default",
    "C76_create",
    "C76_long_refuted"
   ],
   "note": ""
  },
  {
   "property": "C77",
   "status": "proved",
   "theorems": [
    "C77_tables",
    "C77_fit",
    "C77_rows",
    "C77_best_only",
    "C77_switch"
   ],
   "note": ""
  },
  {
   "property": "C78",
   "status": "proved",
   "theorems": [
    "C78_solvable",
    "C78_optimizer",
    "C78_forecast"
   ],
   "note": ""
  },
  {
   "property": "C79",
   "status": "proved",
   "theorems": [
    "C79_series",
    "C79_table"
   ],
   "note": "Months or years without a row are not covered: the table of actuals then has interpolated x (C31)."
  },
  {
   "property": "C80",
   "status": "proved",
   "theorems": [
    "C80_intervals",
    "C80_forecast",
    "C80_longer_rival",
    "C80_rough_rival"
   ],
   "note": "Candidates with fewer parameters must leave an error with a worse score; a fit with cost below 1e-320 could win against an exact one."
  },
  {
   "property": "C81",
   "status": "proved",
   "theorems": [
    "C81_fit",
    "C81_intervals",
    "C81_forecast",
    "C81_steady",
    "C81_models",
    "C81_masks",
    "C81_tables",
    "C81_sources"
   ],
   "note": "Exact fits keep a fixed score, so with one of them among the candidates the choice may depend on the factor (C73_exact_refuted)."
  },
  {
   "property": "C82",
   "status": "proved",
   "theorems": [
    "C82_dates",
    "C82_steps",
    "C82_spikes",
    "C82_shipped",
    "C82_ranges",
    "C82_same_day_refuted",
    "C82_dated"
   ],
   "note": "Years of five digits break the order (C82_example)."
  },
  {
   "property": "C83",
   "status": "proved",
   "theorems": [
    "C83_table",
    "C83_complete",
    "C83_numbers",
    "C83_dates",
    "C83_days"
   ],
   "note": "Real arithmetic. Months: C83_days_months_refuted; hours: C83_hours_refuted. The option is not used inside the package."
  },
  {
   "property": "C84",
   "status": "proved",
   "theorems": [
    "C84_fit",
    "C84_single",
    "C84_forecast",
    "C84_safe",
    "C84_closed",
    "C84_shipped",
    "C84_dummy",
    "C84_calendars",
    "C84_datelist",
    "C84_naive",
    "C84_naive_part_refuted",
    "C84_same_name_refuted"
   ],
   "note": "Without dates the cache of a seasonal model cannot be prepared, so the theorem is about dated series. Necessity: C84_naive_part_refuted, C84_same_name_refuted."
  },
  {
   "property": "C85",
   "status": "proved",
   "theorems": [
    "C85_label",
    "C85_argument",
    "C85_column",
    "C85_shipped",
    "C85_dummy",
    "C85_composed",
    "C85_pinned",
    "C85_id",
    "C85_tables",
    "C85_same_name_refuted",
    "C85_reader_refuted"
   ],
   "note": "Hypotheses: the sort by aic_c looks at scores only, and each series sees the same random numbers under both names. Necessity of distinct names and of models that do not read names: C85_same_name_refuted, C85_reader_refuted."
  },
  {
   "property": "C86",
   "status": "proved",
   "theorems": [
    "C86_names",
    "C86_parts",
    "C86_shipped",
    "C86_candidates",
    "C86_single",
    "C86_forecast",
    "C86_naive_refuted",
    "C86_same_name_refuted"
   ],
   "note": "Hypothesis: parts are told apart by plain names (C86_parts, C86_shipped); necessity: C86_same_name_refuted, C86_naive_refuted."
  },
  {
   "property": "C87",
   "status": "proved",
   "theorems": [
    "C87_sort",
    "C87_fits",
    "C87_single",
    "C87_forecast",
    "C87_best_refuted",
    "C87_both_refuted"
   ],
   "note": "The sort by score satisfies the hypothesis over the extended reals (C87_sort). Necessity: C87_best_refuted, C87_both_refuted."
  },
  {
   "property": "C88",
   "status": "proved",
   "theorems": [
    "C88_models",
    "C88_shipped",
    "C88_extrapolation",
    "C88_metadata",
    "C88_candidates",
    "C88_best",
    "C88_intervals_refuted",
    "C88_naive",
    "C88_snaive",
    "C88_naive_refuted",
    "C88_sources",
    "C88_naive_best"
   ],
   "note": "Spike counts positions; C88_naive_refuted shows that the value of the naive model at a single sample depends on the horizon, C88_intervals_refuted that intervals of later rows change. C88_naive and C88_snaive are about extrapolations, C88_naive_best about whole forecasts, all three for daily and weekly series over the reals."
  },
  {
   "property": "C89",
   "status": "proved",
   "theorems": [
    "C89_any_carrier",
    "C89_ignored_values",
    "C89_missing",
    "C89_hide",
    "C89_outliers_refuted",
    "C89_auto_refuted",
    "C89_negative_refuted",
    "C89_shared_refuted"
   ],
   "note": "Witnesses show that outlier detection, mode 'auto', negative weights and shared dates let ignored values leak into scores, the choice of models or the intervals."
  },
  {
   "property": "C90",
   "status": "proved",
   "theorems": [
    "C90_errors",
    "C90_residuals",
    "C90_run",
    "C90_percentile",
    "C90_sources"
   ],
   "note": "Draws that always pick the greatest residual attain the bound and leave the forecast outside its interval."
  },
  {
   "property": "C91",
   "status": "proved",
   "theorems": [
    "C91_same",
    "C91_dates",
    "C91_positions",
    "C91_weights",
    "C91_weights_outliers",
    "C91_source",
    "C91_columns",
    "C91_labels_refuted"
   ],
   "note": "Without outlier removal the description of the weights differs (C91_labels_refuted)."
  },
  {
   "property": "C92",
   "status": "proved",
   "theorems": [
    "C92_png",
    "C92_html",
    "C92_png_rows",
    "C92_png_count",
    "C92_html_rows",
    "C92_column",
    "C92_none",
    "C92_corner",
    "C92_panels",
    "C92_percentiles_refuted"
   ],
   "note": "Percentiles other than 5 and 20 are not shown in a png (C92_percentiles_refuted)."
  },
  {
   "property": "C93",
   "status": "proved",
   "theorems": [
    "C93_twice",
    "C93_positions",
    "C93_mask",
    "C93_grid",
    "C93_columns",
    "C93_separate_steps_refuted"
   ],
   "note": "Filling first and interpolating in a second pass differs from doing both at once (C93_separate_steps_refuted)."
  },
  {
   "property": "C94",
   "status": "proved",
   "theorems": [
    "C94_times",
    "C94_means",
    "C94_weighted_means",
    "C94_again_refuted"
   ],
   "note": "The refuted expectation is C94_again_refuted: with the values 0, 0, 6 the constant model gives 2, and 6/5 if the 6 is entered twice."
  },
  {
   "property": "C95",
   "status": "proved",
   "theorems": [
    "C95_sums",
    "C95_cost",
    "C95_choice",
    "C95_redundant",
    "C95_order",
    "C95_chosen"
   ],
   "note": "The model is on real numbers; costs of 0 are scored specially by the code and excluded from the statements about scores (see C80)."
  },
  {
   "property": "C96",
   "status": "proved",
   "theorems": [
    "C96_constrained",
    "C96_at_fit",
    "C96_score"
   ],
   "note": "At least one parameter stays free; models without free parameters are not optimized at all (C09, C35)."
  },
  {
   "property": "C97",
   "status": "proved",
   "theorems": [
    "C97_confirmed",
    "C97_dropped",
    "C97_forecast",
    "C97_score"
   ],
   "note": "Further samples at positions that already occur are excluded because the weights of samples at one position are divided by their number (C94)."
  },
  {
   "property": "C98",
   "status": "proved",
   "theorems": [
    "C98_stable",
    "C98_cost",
    "C98_one_value"
   ],
   "note": "The bound is about the samples; forecasts outside the range of the samples can move by more than the values (a line rises further beyond its end)."
  },
  {
   "property": "C99",
   "status": "proved",
   "theorems": [
    "C99_left_out",
    "C99_more_weight"
   ],
   "note": "Further samples at positions that already occur are excluded because the weights of samples at one position are divided by their number (C94)."
  },
  {
   "property": "C100",
   "status": "proved",
   "theorems": [
    "C100_balance",
    "C100_level",
    "C100_alone",
    "C100_groups",
    "C100_weekdays",
    "C100_months"
   ],
   "note": ""
  },
  {
   "property": "C101",
   "status": "proved",
   "theorems": [
    "C101_bias",
    "C101_sources",
    "C101_width"
   ],
   "note": ""
  },
  {
   "property": "C102",
   "status": "proved",
   "theorems": [
    "C102_mirror",
    "C102_bounds",
    "C102_same_request"
   ],
   "note": ""
  },
  {
   "property": "C103",
   "status": "proved",
   "theorems": [
    "C103_cost",
    "C103_first_week",
    "C103_beats"
   ],
   "note": "The comparison of fits by merit does not hold: C103_first_week and C103_beats state the deviation for all short series, C103_example shows a run."
  }
 ]
}