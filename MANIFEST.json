{
 "claims": [
  {
   "property": "C01",
   "status": "proved",
   "theorems": [
    "C01_julday_counts_days",
    "C01_julday_order",
    "C01_julday_injective",
    "C01_julday_anchor"
   ],
   "note": "Full statement proved; year zero included in julday_counts_days."
  },
  {
   "property": "C02",
   "status": "proved",
   "theorems": [
    "C02_isleap_rule",
    "C02_isleap_01",
    "C02_isleap_year_length",
    "C02_weekday_advances",
    "C02_weekday_anchor",
    "C02_weekday_of_date_refuted"
   ],
   "note": "Full statement proved. weekday_of_date_refuted records a stronger expectation that fails: from noon on the fractional day number gives the next weekday."
  },
  {
   "property": "C03",
   "status": "partial",
   "theorems": [
    "C03_day_of_year",
    "C03_fractional_day_of_year",
    "C03_year_one_refuted",
    "C03_fractional_spring_refuted"
   ],
   "note": "Proved for all dates of years other than 1. Refuted for year 1 (uninitialised reference day) and for the fractional query with the spring clock (stops the program)."
  },
  {
   "property": "C04",
   "status": "partial",
   "theorems": [
    "C04_getdim",
    "C04_codes",
    "C04_refused_unchanged",
    "C04_sorted",
    "C04_declfix_partial",
    "C04_declfix_refuted",
    "C04_declfix_refused_refuted"
   ],
   "note": "Query, refusal and order proved for all histories. Fixed dimensions: proved when the new name sorts last, refuted otherwise (the mark lands on another dimension after the sort)."
  },
  {
   "property": "C05",
   "status": "partial",
   "theorems": [
    "C05_lookup_partial",
    "C05_codes_partial",
    "C05_refused_declaration_refuted",
    "C05_illegal_type_refuted"
   ],
   "note": "Proved for all histories of declarations that are correct in themselves, duplicates included. Refuted when a refused declaration (undeclared dimension, illegal type) is in the history: an unset entry stays in the table."
  },
  {
   "property": "C06",
   "status": "partial",
   "theorems": [
    "C06_registry",
    "C06_undeclared_dimension_refuted",
    "C06_refused_stays_refuted",
    "C06_illegal_type_refuted"
   ],
   "note": "Registry law proved for all histories of legal types and declared dimensions. Refuted: an undeclared dimension dereferences NULL, a refused parameter stays registered, an illegal type is success."
  },
  {
   "property": "C07",
   "status": "partial",
   "theorems": [
    "C07_expansion",
    "C07_refused",
    "C07_malformed_refuted",
    "C07_empty_refuted"
   ],
   "note": "Expansion proved for every list of well-formed tokens and every size. Refusal holds only for range errors; refuted for non-numbers and for empty strings."
  },
  {
   "property": "C08",
   "status": "proved",
   "theorems": [
    "C08_bounds",
    "C08_success"
   ],
   "note": "Full statement proved."
  },
  {
   "property": "C09",
   "status": "partial",
   "theorems": [
    "C09_values",
    "C09_kept",
    "C09_new",
    "C09_variables",
    "C09_names",
    "C09_history",
    "C09_from_zero_refuted",
    "C09_to_zero_refuted",
    "C09_twice_refuted",
    "C09_descriptions_refuted"
   ],
   "note": "Proved for every number of dimensions, every position of the resized dimension and every history of resizings between positive values. Refuted for value 0 and for a dimension used twice in one parameter."
  },
  {
   "property": "C10",
   "status": "partial",
   "theorems": [
    "C10_list",
    "C10_table",
    "C10_refused",
    "C10_integers",
    "C10_integer_table",
    "C10_update",
    "C10_update_refuted",
    "C10_default_refuted",
    "C10_cube_refuted"
   ],
   "note": "Proved for one and two dimensions in bytes. Refuted: three dimensions, layout of updateparam, integer defaults."
  },
  {
   "property": "C11",
   "status": "partial",
   "theorems": [
    "C11_list",
    "C11_table",
    "C11_element",
    "C11_put",
    "C11_safe",
    "C11_refused",
    "C11_integer_table_refuted",
    "C11_long_table_refuted",
    "C11_cube_refuted",
    "C11_storage_refuted"
   ],
   "note": "Proved for scalars, lists and real tables whose storage is large enough. Refuted: integer tables, three dimensions, storage overrun."
  },
  {
   "property": "C12",
   "status": "partial",
   "theorems": [
    "C12_check",
    "C12_check_defined",
    "C12_codes",
    "C12_address",
    "C12_inside",
    "C12_injective",
    "C12_onto",
    "C12_distinct",
    "C12_parens_refuted",
    "C12_overflow_refuted",
    "C12_blank_refuted"
   ],
   "note": "Proved for every number of dimensions. Refuted: parenthesised lists, overflowing numbers, blanks."
  },
  {
   "property": "C13",
   "status": "partial",
   "theorems": [
    "C13_values",
    "C13_file",
    "C13_integers",
    "C13_integer_value",
    "C13_round_trip_refuted",
    "C13_blank_line_refuted",
    "C13_note_refuted",
    "C13_notes_refuted",
    "C13_undeclared_refuted"
   ],
   "note": "Reading proved for every file whose values are written as the format says. Refuted: files written by the program itself, blank lines, notes."
  },
  {
   "property": "C14",
   "status": "partial",
   "theorems": [
    "C14_file",
    "C14_comments",
    "C14_lookup",
    "C14_declare",
    "C14_string",
    "C14_missing",
    "C14_overflow_refuted",
    "C14_glued_refuted",
    "C14_two_blanks_refuted",
    "C14_long_comment_refuted",
    "C14_last_line_refuted",
    "C14_negative_refuted",
    "C14_integer_refuted"
   ],
   "note": "Proved for every well-formed file whose values fit. Refuted: storage overflow, comment forms, last line, negative index, control_integer."
  },
  {
   "property": "C15",
   "status": "partial",
   "theorems": [
    "C15_settings",
    "C15_debug_refuted",
    "C15_unknown_refuted",
    "C15_truncated_refuted",
    "C15_many_refuted",
    "C15_override",
    "C15_override_refuted",
    "C15_model_name"
   ],
   "note": "Proved for every argument list of known options with their arguments and one control file. Refuted otherwise."
  },
  {
   "property": "C16",
   "status": "partial",
   "theorems": [
    "C16_window",
    "C16_steps",
    "C16_run",
    "C16_restart",
    "C16_order_refuted",
    "C16_length_refuted",
    "C16_empty_line_refuted",
    "C16_count_refuted"
   ],
   "note": "Window, count and end proved for all files and worlds; exact step list, order and lengths proved for every file with increasing times. Refuted: decreasing times before the start, equal times, empty line, count after an error."
  },
  {
   "property": "C17",
   "status": "partial",
   "theorems": [
    "C17_merge",
    "C17_all_used",
    "C17_first_file_refuted",
    "C17_same_day_refuted",
    "C17_crash_refuted"
   ],
   "note": "Proved for every merge in which times are on different days and the first file ends last; otherwise refuted (three ways)."
  },
  {
   "property": "C18",
   "status": "partial",
   "theorems": [
    "C18_accepted",
    "C18_refused",
    "C18_seconds_refuted",
    "C18_calendar_refuted",
    "C18_stops"
   ],
   "note": "Acceptance proved for every well-formed record and refusal for each field except seconds (refuted); calendar-impossible days are accepted (refuted)."
  },
  {
   "property": "C19",
   "status": "partial",
   "theorems": [
    "C19_round_trip",
    "C19_refused",
    "C19_cut",
    "C19_other_declaration",
    "C19_step_length_refuted",
    "C19_refused_steps_refuted",
    "C19_cut_unnoticed_refuted",
    "C19_cut_number_refuted",
    "C19_mismatch_refuted",
    "C19_more_dimensions_refuted",
    "C19_long_name_refuted",
    "C19_long_title_refuted",
    "C19_no_dimension_refuted",
    "C19_integers_refuted"
   ],
   "note": "Round trip proved for every set of variables with dimensions, names under 49 and title under 79 characters, real values printed by a faithful printer; refusal proved for a first mismatching variable. Refuted in ten ways listed in DESIGN.md."
  },
  {
   "property": "C20",
   "status": "partial",
   "theorems": [
    "C20_life",
    "C20_success",
    "C20_counts",
    "C20_no_preparation",
    "C20_accepted",
    "C20_declare_failure_refuted",
    "C20_data_error_refuted",
    "C20_exit_status_refuted"
   ],
   "note": "Order, counts and stopping proved for every behaviour of the modules. Refuted: declare failure ignored, data error reported as success, exit status."
  },
  {
   "property": "C21",
   "status": "proved",
   "theorems": [
    "C21_growable"
   ],
   "note": "Full statement proved."
  },
  {
   "property": "C22",
   "status": "proved",
   "theorems": [
    "C22_fresh",
    "C22_instances",
    "C22_bad_id",
    "C22_good_id",
    "C22_independent"
   ],
   "note": "Full statement proved for one thread; ids are unbounded in the model."
  },
  {
   "property": "C23",
   "status": "proved",
   "theorems": [
    "C23_table",
    "C23_append",
    "C23_row_copy",
    "C23_numeric"
   ],
   "note": "Full statement proved."
  },
  {
   "property": "C24",
   "status": "partial",
   "theorems": [
    "C24_script",
    "C24_fresh",
    "C24_discarded",
    "C24_repeat_refuted",
    "C24_crash_refuted"
   ],
   "note": "Proved for every history, except a run without new lines (refuted: the old script runs again) and a run ended by a foreign exception (refuted)."
  },
  {
   "property": "C25",
   "status": "partial",
   "theorems": [
    "C25_executed",
    "C25_refused",
    "C25_load",
    "C25_failed_load_refuted",
    "C25_switches_refuted"
   ],
   "note": "Proved for every history of loads and runs in which a failing load fails while reading. Refuted: failing test run, foreign exception."
  },
  {
   "property": "C26",
   "status": "partial",
   "theorems": [
    "C26_lookup",
    "C26_split",
    "C26_line",
    "C26_errors",
    "C26_output",
    "C26_stopped_refuted",
    "C26_load_refuted",
    "C26_stale_refuted"
   ],
   "note": "Splitting and access proved for every text; the link text/lines proved for completed calls. Refuted for stopped runs, failed loads and cleared texts."
  },
  {
   "property": "C27",
   "status": "partial",
   "theorems": [
    "C27_copy",
    "C27_copy_length",
    "C27_convert",
    "C27_convert_total",
    "C27_trim",
    "C27_round_trip",
    "C27_round_trip_module",
    "C27_round_trip_refuted",
    "C27_value",
    "C27_value_kind",
    "C27_value2",
    "C27_value2_unterminated"
   ],
   "note": "Proved for every text of ASCII characters. Refuted for trailing non-ASCII characters. value2_unterminated shows the C copy without NUL when it fills the buffer."
  },
  {
   "property": "C28",
   "status": "partial",
   "theorems": [
    "C28_file",
    "C28_string_partial",
    "C28_string_current",
    "C28_string_refuted"
   ],
   "note": "File switch proved. String switch proved for the current user number only, refuted for others."
  },
  {
   "property": "C29",
   "status": "partial",
   "theorems": [
    "C29_values",
    "C29_released",
    "C29_copy",
    "C29_self_refuted",
    "C29_own_refuted"
   ],
   "note": "Proved for every history of operations on distinct variants. Refuted: self-assignment, assigning own characters."
  },
  {
   "property": "C30",
   "status": "partial",
   "theorems": [
    "C30_conservative",
    "C30_reactive",
    "C30_settings",
    "C30_settings_complete",
    "C30_net_dilution",
    "C30_exact_dilution_refuted",
    "C30_failure_ignored_refuted",
    "C30_fill_factor_refuted"
   ],
   "note": "Script proved for every request. Net dilution proved within 1e-5 (six printed digits), exact equality refuted. Failure of the preparation is ignored (refuted)."
  },
  {
   "property": "C31",
   "status": "partial",
   "theorems": [
    "C31_removed",
    "C31_remaining",
    "C31_second_negative_refuted"
   ],
   "note": "Proved for requests with one negative entry; refuted for several."
  },
  {
   "property": "C32",
   "status": "proved",
   "theorems": [
    "C32_fractions",
    "C32_conserved",
    "C32_split",
    "C32_isotopes",
    "C32_per_kg",
    "C32_defined"
   ],
   "note": "Full statement proved."
  },
  {
   "property": "C33",
   "status": "partial",
   "theorems": [
    "C33_once",
    "C33_array",
    "C33_refused",
    "C33_one_short_refuted",
    "C33_negative_refuted",
    "C33_headings",
    "C33_cleared",
    "C33_elements",
    "C33_elements_refuted"
   ],
   "note": "Proved for arrays with at least one row more than the table; refuted at the boundary, for negative sizes and for two redox states of one element in a formula."
  },
  {
   "property": "C34",
   "status": "partial",
   "theorems": [
    "C34_add_extensive",
    "C34_totals_add",
    "C34_add",
    "C34_multiply",
    "C34_scaled",
    "C34_from_coefs",
    "C34_total",
    "C34_simplify",
    "C34_simplify_skips",
    "C34_merge_totals",
    "C34_merge_state_partial",
    "C34_merge_state_refuted",
    "C34_intensive",
    "C34_intensive_refuted"
   ],
   "note": "Proved for every composition except merge_redox of a state (partial, refuted) and add_intensive of names only in the first (refuted)."
  },
  {
   "property": "C35",
   "status": "partial",
   "theorems": [
    "C35_numbers",
    "C35_stable",
    "C35_text",
    "C35_long_word_refuted",
    "C35_round_trip",
    "C35_empty_name_refuted"
   ],
   "note": "Proved for words of at most 255 characters without blanks and nonempty names; refuted otherwise."
  },
  {
   "property": "C36",
   "status": "partial",
   "theorems": [
    "C36_phase",
    "C36_declare",
    "C36_each_once",
    "C36_modes",
    "C36_unknown_declares_nothing",
    "C36_name_mode",
    "C36_unknown_mode_refuted",
    "C36_empty_mode_refuted",
    "C36_precip_refuted"
   ],
   "note": "Order and failure proved for every behaviour of the modules. Refuted: unknown mode, empty mode, choice of the precipitation module."
  },
  {
   "property": "C37",
   "status": "proved",
   "theorems": [
    "C37_volume",
    "C37_areas"
   ],
   "note": "Full statement proved."
  },
  {
   "property": "C38",
   "status": "partial",
   "theorems": [
    "C38_gallons",
    "C38_balance",
    "C38_balance_run",
    "C38_bounds",
    "C38_applied",
    "C38_unit_response",
    "C38_empties",
    "C38_loss_refuted",
    "C38_diversion_refuted",
    "C38_stuck_refuted"
   ],
   "note": "Balance proved for every step and run with the loss counted as the code does. Refuted: loss never leaves the channel, diverted volume, stuck water."
  },
  {
   "property": "C39",
   "status": "partial",
   "theorems": [
    "C39_histogram",
    "C39_length",
    "C39_filled",
    "C39_repeated_distance_refuted"
   ],
   "note": "Proved for strictly increasing distances; refuted when the last distance is repeated."
  },
  {
   "property": "C40",
   "status": "partial",
   "theorems": [
    "C40_round_trip",
    "C40_codes",
    "C40_flags",
    "C40_last_step",
    "C40_skipped_january_refuted"
   ],
   "note": "Proved for all dates; the flags are right when every 1 January is simulated, refuted otherwise."
  },
  {
   "property": "C41",
   "status": "partial",
   "theorems": [
    "C41_intercept",
    "C41_step_partial",
    "C41_run",
    "C41_leaf_fall_refuted",
    "C41_grass_refuted"
   ],
   "note": "Interception proved for every input; step balance proved except at leaf fall and for grass under a snow pack (refuted)."
  },
  {
   "property": "C42",
   "status": "partial",
   "theorems": [
    "C42_precipitation",
    "C42_deposition",
    "C42_refusal",
    "C42_sources",
    "C42_segments",
    "C42_first_step_refuted",
    "C42_uninitialised_refuted",
    "C42_mixed_refuted",
    "C42_unmixed",
    "C42_flags_refuted",
    "C42_schedule_refuted"
   ],
   "note": "Split proved for every input. Refuted: mixed days become all snow (integer rain fraction), schedules of internal irrigation are ignored after the first day, first step counts diversions twice, uninitialised irrigation, flags with wrong bits."
  },
  {
   "property": "C43",
   "status": "proved",
   "theorems": [
    "C43_fresh_unit"
   ],
   "note": "Full statement proved."
  },
  {
   "property": "C44",
   "status": "partial",
   "theorems": [
    "C44_own_number",
    "C44_decode",
    "C44_rows",
    "C44_assignment_partial",
    "C44_assignment_refuted",
    "C44_distinct_rows",
    "C44_tracking"
   ],
   "note": "Numbers and decoding proved for every reservoir; row assignment proved when every hillslope has the full number of bins, refuted otherwise."
  },
  {
   "property": "C45",
   "status": "partial",
   "theorems": [
    "C45_mix",
    "C45_zeroing_refuted",
    "C45_kept_refuted"
   ],
   "note": "Proved for every list without an earlier negative evaporation entry; refuted after one."
  },
  {
   "property": "C46",
   "status": "partial",
   "theorems": [
    "C46_heat_water",
    "C46_holding_capacity_refuted"
   ],
   "note": "Water and heat account proved for every state; the holding capacity fails over a whole interval (refuted)."
  },
  {
   "property": "C47",
   "status": "partial",
   "theorems": [
    "C47_route",
    "C47_one_lag_refuted"
   ],
   "note": "Proved for two or more lag intervals; one interval (the declared default) accesses outside the array (refuted)."
  },
  {
   "property": "C48",
   "status": "proved",
   "theorems": [
    "C48_cover"
   ],
   "note": "Full statement proved."
  },
  {
   "property": "C49",
   "status": "proved",
   "theorems": [
    "C49_onset",
    "C49_infiltration",
    "C49_infiltration_run",
    "C49_series",
    "C49_all",
    "C49_time",
    "C49_newton",
    "C49_constant"
   ],
   "note": "Full statement proved, for every exp and log function."
  },
  {
   "property": "C50",
   "status": "proved",
   "theorems": [
    "C50_south",
    "C50_north",
    "C50_melt_factor"
   ],
   "note": "Full statement proved for every sine function with values between -1 and 1."
  },
  {
   "property": "C51",
   "status": "partial",
   "theorems": [
    "C51_snow_balance",
    "C51_snow_interval",
    "C51_ground_melt_refuted"
   ],
   "note": "Balance proved over any number of intervals. The configured ground melt rate is refuted for partial cover."
  },
  {
   "property": "C52",
   "status": "partial",
   "theorems": [
    "C52_split_partial",
    "C52_parts",
    "C52_parts_unique",
    "C52_overrun_refuted",
    "C52_result_refuted"
   ],
   "note": "Proved for paths with a directory (or equal lengths); refuted without one."
  },
  {
   "property": "C53",
   "status": "partial",
   "theorems": [
    "C53_header",
    "C53_undeclared",
    "C53_names",
    "C53_delivered",
    "C53_absent",
    "C53_several_refuted",
    "C53_title_refuted"
   ],
   "note": "Proved for one data file. Refuted: several files, long first line."
  },
  {
   "property": "C54",
   "status": "partial",
   "theorems": [
    "C54_copy",
    "C54_read",
    "C54_refused",
    "C54_range",
    "C54_next",
    "C54_endless_refuted",
    "C54_negative_refuted",
    "C54_overwrites_refuted",
    "C54_unset_refuted"
   ],
   "note": "Proved for targets that are all nonnegative or all below -1, on stores kept in order; the other ranges are refuted: endless, nothing copied, or everything overwritten. The words after COPY are an argument."
  },
  {
   "property": "C55",
   "status": "partial",
   "theorems": [
    "C55_listing",
    "C55_row",
    "C55_largest_refuted",
    "C55_ignored_refuted",
    "C55_too_large_refuted"
   ],
   "note": "Proved for numbers and ranges that fit an int and do not end in its largest value; what the code does otherwise is refuted."
  },
  {
   "property": "C56",
   "status": "partial",
   "theorems": [
    "C56_listed",
    "C56_all",
    "C56_bare",
    "C56_once",
    "C56_narrowed_refuted",
    "C56_too_large_refuted",
    "C56_half_refuted"
   ],
   "note": "Proved for blocks of number lists and for the three forms of whole selection; narrowing after -all and oversized numbers are refuted. How option words are recognised is an argument."
  },
  {
   "property": "C57",
   "status": "partial",
   "theorems": [
    "C57_listed",
    "C57_all",
    "C57_cells_refuted",
    "C57_repeated_refuted"
   ],
   "note": "Proved for blocks of number lists and for -all; bare -cells and repetition after -file are refuted. The text written for a reactant is not modelled."
  },
  {
   "property": "C58",
   "status": "partial",
   "theorems": [
    "C58_lines",
    "C58_sums",
    "C58_isotopes",
    "C58_defined",
    "C58_means",
    "C58_range",
    "C58_multiply",
    "C58_ratio_refuted",
    "C58_species_refuted",
    "C58_cancel_refuted",
    "C58_multiply_mix",
    "C58_multiply_zero_refuted",
    "C58_averages",
    "C58_case"
   ],
   "note": "Amounts, isotope totals and averages proved in exact arithmetic. Isotope ratios, species concentrations, cancelled water and scaling by zero are refuted. Log activities and the log maps of species are not modelled."
  },
  {
   "property": "C59",
   "status": "partial",
   "theorems": [
    "C59_phases",
    "C59_solid_solutions",
    "C59_exchange",
    "C59_surface",
    "C59_kinetics",
    "C59_gas",
    "C59_formula_refuted",
    "C59_area_refuted",
    "C59_init_moles_refuted",
    "C59_gas_types_refuted",
    "C59_related",
    "C59_related_surface"
   ],
   "note": "Proved for the six kinds when component names are not empty, phases of one name share their add formula and gas phases share their type. Differing add formulas, surface area, init_moles of new solid-solution components and gas phases of different types are refuted."
  },
  {
   "property": "C60",
   "status": "partial",
   "theorems": [
    "C60_step",
    "C60_surface",
    "C60_never_stops",
    "C60_run",
    "C60_basin",
    "C60_irrigation_refuted",
    "C60_dropped_refuted"
   ],
   "note": "Balance proved for every step, run and basin, up to 1e-7 m per step. That the printed balance is zero with irrigation from ground water is refuted, and so is exactness of drainage below 1e-7 m. EXP, DLOG, SQRT and powers are arguments."
  },
  {
   "property": "C61",
   "status": "partial",
   "theorems": [
    "C61_ranges",
    "C61_step",
    "C61_no_excess",
    "C61_theta_refuted"
   ],
   "note": "Proved for runs of any length when infiltration excess stays below the supply (unconditional without infiltration excess) and the soil starts between wilting point and field capacity; a start below wilting point is accepted by the program and refuted."
  },
  {
   "property": "C62",
   "status": "proved",
   "theorems": [
    "C62_bin",
    "C62_depth",
    "C62_table"
   ],
   "note": "Proved for every bin with area; bins without area are skipped by the code."
  },
  {
   "property": "C63",
   "status": "partial",
   "theorems": [
    "C63_areas",
    "C63_classes",
    "C63_drain",
    "C63_drain_jump_refuted",
    "C63_drain_cap_refuted",
    "C63_base_floor_refuted",
    "C63_base",
    "C63_base_parabolic_refuted",
    "C63_pumping"
   ],
   "note": "Area fractions, tile drains, base flow and pumping proved. A jump of tile flow for steps of other than an hour, flow of tile drains beyond the water above them, the floor of base flow and parabolic base flow beyond the largest deficit are refuted."
  },
  {
   "property": "C64",
   "status": "partial",
   "theorems": [
    "C64_formula",
    "C64_any_text",
    "C64_two_colons_refuted",
    "C64_hydrate_in_group_refuted",
    "C64_point_refuted",
    "C64_open_bracket_refuted"
   ],
   "note": "Proved for every formula of the grammar and for every text (answer or ERROR, undefined only after a final opening bracket). Several hydrate parts, hydrates in groups, a lone point and the final opening bracket are refuted."
  },
  {
   "property": "C65",
   "status": "partial",
   "theorems": [
    "C65_elements",
    "C65_add",
    "C65_combine",
    "C65_multiply",
    "C65_swap",
    "C65_swap_missing",
    "C65_first_constant_refuted",
    "C65_short_combine_refuted",
    "C65_swap_overrun_refuted",
    "C65_small_dropped_refuted"
   ],
   "note": "Proved for every order a sort may give. The constants of the first reaction added, combination of fewer than two species, solving without spare room and dropping of small sums are refuted."
  },
  {
   "property": "C66",
   "status": "partial",
   "theorems": [
    "C66_signs",
    "C66_number",
    "C66_fraction",
    "C66_canonical",
    "C66_idempotent",
    "C66_no_sign",
    "C66_octal_refuted",
    "C66_junk_refuted",
    "C66_overflow_refuted"
   ],
   "note": "Proved for signs, whole numbers without leading zero in the range of int, and decimal charges. Leading zeros, text behind a fraction and numbers beyond int are refuted."
  },
  {
   "property": "C67",
   "status": "partial",
   "theorems": [
    "C67_dissociation",
    "C67_association",
    "C67_species",
    "C67_characters",
    "C67_elements",
    "C67_state_refuted",
    "C67_second_state_refuted",
    "C67_empty_left_refuted"
   ],
   "note": "Proved for sums of species whose names are formulas, with any spacing; numbers exact. Names containing (S), a second (s) and an empty left side are refuted. Pitzer species and secondary masters are not modelled."
  },
  {
   "property": "C68",
   "status": "partial",
   "theorems": [
    "C68_step",
    "C68_fluxes",
    "C68_flows",
    "C68_run",
    "C68_sources",
    "C68_dropped_refuted",
    "C68_division_refuted"
   ],
   "note": "Proved for fluxes that fit together, up to 1e-3 m3 a step and exactly when throughfall is zero or at least 1e-3 m3. Smaller throughfall breaks the balance, and can lead to a division by zero (refuted)."
  },
  {
   "property": "C69",
   "status": "proved",
   "theorems": [
    "C69_run",
    "C69_start",
    "C69_canopy",
    "C69_snow"
   ],
   "note": "Proved for every run of the modelled reservoirs; canopy and snow under the same conditions as C68."
  },
  {
   "property": "C70",
   "status": "partial",
   "theorems": [
    "C70_balance",
    "C70_closed",
    "C70_diverted_refuted",
    "C70_start_refuted",
    "C70_start_one"
   ],
   "note": "Proved without diversions and channel losses. With them the basin volume falls behind by all that was diverted or lost (refuted for every such run); the initial stream volume is too small with two channels (refuted)."
  },
  {
   "property": "C71",
   "status": "proved",
   "theorems": [
    "C71_joint",
    "C71_saturated",
    "C71_outflow"
   ],
   "note": "Proved up to the 1e-7 m a step that the hillslope model drops; infiltration excess is assumed not to exceed the surface input, and throughfall not to be tiny."
  },
  {
   "property": "C72",
   "status": "partial",
   "theorems": [
    "C72_transfer",
    "C72_ranges",
    "C72_again",
    "C72_unknown",
    "C72_lost_refuted",
    "C72_nameless_refuted",
    "C72_largest_refuted"
   ],
   "note": "Proved for systems whose named amounts have names and whose parts are stored under their own names and numbers. The viscosity of pure water, the viscosity flag of the diffuse layer and its map of charges are lost (refuted for every value); an amount without a name puts all that follows out of step (refuted); a range up to the largest int overflows (refuted for every such range). The end of the range of numbers and the description are not sent by design."
  },
  {
   "property": "C73",
   "status": "partial",
   "theorems": [
    "C73_distinct",
    "C73_find",
    "C73_text",
    "C73_long_refuted"
   ],
   "note": "Proved for words of at most 255 characters; a longer word and all after it are lost (refuted)."
  },
  {
   "property": "C74",
   "status": "partial",
   "theorems": [
    "C74_mid",
    "C74_instr",
    "C74_trim",
    "C74_val",
    "C74_meaning",
    "C74_unique",
    "C74_ends",
    "C74_power",
    "C74_sign_refuted",
    "C74_zero_refuted",
    "C74_mod_refuted",
    "C74_mid_refuted",
    "C74_trim_refuted",
    "C74_val_refuted",
    "C74_asc",
    "C74_chr_asc",
    "C74_tokens",
    "C74_open_text",
    "C74_remark",
    "C74_names_refuted"
   ],
   "note": "Proved for all formulas over the modelled operations; termination for all token sequences without VAL (a text that asks for its own value never ends, refuted). -a^k takes the minus first, 0^0 is 0, MOD of a multiple is 1e-14, MID$ behind the end throws, and INSTR/TRIM take no sums (all refuted for every such case). The text of a line gives the tokens written there; numbers are read by an arbitrary function (strtod). Names share a variable if their first twenty characters agree (refuted)."
  },
  {
   "property": "C75",
   "status": "partial",
   "theorems": [
    "C75_places",
    "C75_element",
    "C75_first",
    "C75_nested_refuted"
   ],
   "note": "Proved; at a first use the count of dimensions stops at a comma of an inner array, so that a(b(1,2),3) fails (refuted for every subscript)."
  },
  {
   "property": "C76",
   "status": "partial",
   "theorems": [
    "C76_statement_end",
    "C76_rerun",
    "C76_save_text",
    "C76_equals",
    "C76_then",
    "C76_on",
    "C76_run",
    "C76_unique",
    "C76_element_refuted",
    "C76_skip_refuted"
   ],
   "note": "Proved for the structured fragment (no GOTO; no IF inside the THEN part of an IF that has an ELSE on the same line) and for runs whose meaning is defined. A loop over an array element counts in the element used last, and a skipped loop stops at the NEXT without a name of an inner loop with the same variable (both refuted)."
  },
  {
   "property": "C77",
   "status": "partial",
   "theorems": [
    "C77_blank_lines",
    "C77_renum_words",
    "C77_compile",
    "C77_enter",
    "C77_typed",
    "C77_found",
    "C77_renum",
    "C77_renum_list",
    "C77_dangling_refuted",
    "C77_split",
    "C77_quote_refuted"
   ],
   "note": "Proved; RENUM keeps numbers of lines that do not exist, which may name a line afterwards, and a semicolon inside quotes cuts the line (both refuted)."
  },
  {
   "property": "C78",
   "status": "partial",
   "theorems": [
    "C78_put",
    "C78_let",
    "C78_far_refuted"
   ],
   "note": "Proved where PUT gets subscripts in the range of int; a subscript beyond it is stored under another key than the one GET looks for (refuted)."
  },
  {
   "property": "C79",
   "status": "partial",
   "theorems": [
    "C79_next",
    "C79_next_alone",
    "C79_return",
    "C79_restore",
    "C79_on_list",
    "C79_goto",
    "C79_on",
    "C79_gosub_refuted"
   ],
   "note": "Proved for GOTO and ON ... GOTO; ON ... GOSUB without a selected line leaves a record of a call on the stack (refuted for every such state)."
  },
  {
   "property": "C80",
   "status": "partial",
   "theorems": [
    "C80_height",
    "C80_units",
    "C80_hourly_refuted",
    "C80_lapse",
    "C80_every_step",
    "C80_order_refuted",
    "C80_basin"
   ],
   "note": "Lapse rates, both units for daily steps and the basin mean proved; refuted: sub-daily temperatures are not carried to the other unit, and the highest temperature can be below the lowest (exact condition)."
  },
  {
   "property": "C81",
   "status": "partial",
   "theorems": [
    "C81_average",
    "C81_bounds",
    "C81_start_refuted",
    "C81_statistic"
   ],
   "note": "Running mean and bounds proved for every step; refuted: before the window is full, missing days count as 0 degrees. Days means steps of the run."
  },
  {
   "property": "C82",
   "status": "partial",
   "theorems": [
    "C82_start",
    "C82_opening",
    "C82_closing",
    "C82_late_refuted",
    "C82_same_month_refuted"
   ],
   "note": "Start, opening and closing of seasons proved for every year in which the index is exceeded; refuted: late seasons, and plants whose first and last months are the same."
  },
  {
   "property": "C83",
   "status": "proved",
   "theorems": [
    "C83_hamon",
    "C83_day",
    "C83_daily",
    "C83_pan",
    "C83_nonneg"
   ],
   "note": "Proved: pan or Hamon, nonnegative, steps of a day add up, one value per daily step."
  },
  {
   "property": "C84",
   "status": "partial",
   "theorems": [
    "C84_curve",
    "C84_bounds",
    "C84_knots",
    "C84_december_refuted",
    "C84_leap_december_refuted"
   ],
   "note": "Proved for every start date except 21 December (years from 1583); for that date the extrapolation is proved for every year and every day (refuted)."
  },
  {
   "property": "C85",
   "status": "partial",
   "theorems": [
    "C85_observed",
    "C85_estimated",
    "C85_range",
    "C85_hillslopes",
    "C85_first_refuted",
    "C85_dark_refuted"
   ],
   "note": "Proved: use of observations, limits of the estimate, monotony, ratios; refuted: the first hillslope as level ground and the division by its potential radiation."
  },
  {
   "property": "C86",
   "status": "proved",
   "theorems": [
    "C86_hours",
    "C86_bounds",
    "C86_level",
    "C86_half_day"
   ],
   "note": "Proved for all half days and shifts of noon up to half a turn, and beyond if both days are long or both short; the trigonometric functions that give these angles are not modelled."
  },
  {
   "property": "C87",
   "status": "proved",
   "theorems": [
    "C87_booked",
    "C87_unsaturated"
   ],
   "note": "Proved for every run."
  },
  {
   "property": "C88",
   "status": "partial",
   "theorems": [
    "C88_reactions",
    "C88_outlet_refuted"
   ],
   "note": "Reactions proved for every run; moles left over are refuted at the outlet."
  },
  {
   "property": "C89",
   "status": "partial",
   "theorems": [
    "C89_flow_delta",
    "C89_final",
    "C89_entities",
    "C89_flow",
    "C89_delta",
    "C89_delta_refuted"
   ],
   "note": "Proved for every solute that is no isotope, for flows, for the moles of entities and for the first isotope; the second isotope gets a fractionation factor of the first as its delta (refuted for every such call)."
  },
  {
   "property": "C90",
   "status": "partial",
   "theorems": [
    "C90_water",
    "C90_moles_refuted",
    "C90_streams",
    "C90_streams_refuted",
    "C90_hillslopes"
   ],
   "note": "Water received by a segment and outflow of the streams proved; the moles received are overstated in every pass, and inflow and final water of the streams are wrong with three segments or more (refuted)."
  },
  {
   "property": "C91",
   "status": "partial",
   "theorems": [
    "C91_between",
    "C91_out_refuted",
    "C91_final_refuted",
    "C91_stale_refuted",
    "C91_units",
    "C91_net_refuted",
    "C91_vartemp_refuted",
    "C91_volume"
   ],
   "note": "Inflow and units proved; refuted: outflow with groundwater loss, final temperatures, stale final concentrations, net temperatures read out of bounds, temperatures of inputs multiplied by volumes."
  },
  {
   "property": "C92",
   "status": "partial",
   "theorems": [
    "C92_equal",
    "C92_list",
    "C92_units",
    "C92_prefixes",
    "C92_default",
    "C92_two_units_refuted",
    "C92_after_equal_refuted"
   ],
   "note": "Proved for the tokens of a line; amounts in two units on two lines and amounts after \"in n steps\" are refuted. Reading of numbers from characters is an argument."
  },
  {
   "property": "C93",
   "status": "partial",
   "theorems": [
    "C93_empty",
    "C93_equal",
    "C93_list",
    "C93_units",
    "C93_several",
    "C93_unit_lost_refuted",
    "C93_no_count_refuted"
   ],
   "note": "Proved; a last word \"steps\" replaces the unit of time, and \"in\" without a number gives increments of no time (both refuted for all values)."
  },
  {
   "property": "C94",
   "status": "proved",
   "theorems": [
    "C94_equal",
    "C94_list",
    "C94_single"
   ],
   "note": "Proved; two levels in one increment give the first level only."
  },
  {
   "property": "C95",
   "status": "proved",
   "theorems": [
    "C95_count",
    "C95_apart",
    "C95_chained",
    "C95_untouched",
    "C95_saved",
    "C95_kinetics",
    "C95_guard"
   ],
   "note": "Proved for every set of entities in use; the chemistry of a step is a function argument."
  },
  {
   "property": "C96",
   "status": "partial",
   "theorems": [
    "C96_shifts",
    "C96_guard",
    "C96_balance",
    "C96_conveyor",
    "C96_mix_refuted",
    "C96_no_cells_refuted"
   ],
   "note": "Proved for all columns of at least one cell; that a MIX sees the cells of one moment, and that a column of no cells leaves solution 0 alone, are refuted. Chemistry of a cell is an argument."
  },
  {
   "property": "C97",
   "status": "proved",
   "theorems": [
    "C97_cells",
    "C97_out_of_range",
    "C97_lines"
   ],
   "note": "Proved for every list and frequency."
  },
  {
   "property": "C98",
   "status": "partial",
   "theorems": [
    "C98_script",
    "C98_mixture",
    "C98_reacted",
    "C98_failure",
    "C98_failed_reaction_refuted",
    "C98_settings",
    "C98_temperature_refuted",
    "C98_columns_refuted"
   ],
   "note": "Proved for successful mixtures and reactions and for failed mixtures; a failed reaction answered with 0, the lost temperature and the array overrun are refuted. The chemistry is an argument."
  },
  {
   "property": "C99",
   "status": "partial",
   "theorems": [
    "C99_in_turn",
    "C99_all",
    "C99_missing_refuted",
    "C99_ten_digits_refuted",
    "C99_stops"
   ],
   "note": "Proved for numbers of up to nine digits; a missing source answered with 0 and targets of ten digits are refuted."
  },
  {
   "property": "C100",
   "status": "partial",
   "theorems": [
    "C100_columns",
    "C100_unknown",
    "C100_blanks_refuted",
    "C100_no_unit_refuted",
    "C100_many_refuted",
    "C100_solute_refuted",
    "C100_constant_refuted"
   ],
   "note": "Proved for words of up to 12 characters with one blank between them; two blanks, a missing unit, more than 100 columns, an unknown solute and a constant precipitation are refuted."
  },
  {
   "property": "C101",
   "status": "partial",
   "theorems": [
    "C101_in_step",
    "C101_values",
    "C101_constant_refuted",
    "C101_pure",
    "C101_field_refuted",
    "C101_short_refuted"
   ],
   "note": "Proved for files of whole records; unreadable fields, short records and constant external sources are refuted."
  },
  {
   "property": "C102",
   "status": "partial",
   "theorems": [
    "C102_sources",
    "C102_constant_refuted"
   ],
   "note": "Proved with varying or without external sources; refuted with constant ones."
  },
  {
   "property": "C103",
   "status": "partial",
   "theorems": [
    "C103_lines",
    "C103_dos",
    "C103_no_file",
    "C103_remark_refuted",
    "C103_two_backslashes",
    "C103_return"
   ],
   "note": "Proved for texts described by their lines and for any tree of files; a remark right after a backslash, which ends at a semicolon, is refuted."
  },
  {
   "property": "C104",
   "status": "proved",
   "theorems": [
    "C104_keyword",
    "C104_option"
   ],
   "note": "Keywords, options and data are told apart for all lines."
  },
  {
   "property": "C105",
   "status": "partial",
   "theorems": [
    "C105_abbreviation",
    "C105_whole",
    "C105_ambiguous_refuted",
    "C105_value",
    "C105_unknown",
    "C105_data",
    "C105_overrun_refuted"
   ],
   "note": "Proved for lines that leave room in the buffer; ambiguous abbreviations, which are taken for the first name, and the overrun of the buffer are refuted."
  },
  {
   "property": "C106",
   "status": "partial",
   "theorems": [
    "C106_last",
    "C106_no",
    "C106_unknown",
    "C106_bad",
    "C106_silent_refuted",
    "C106_unset_refuted"
   ],
   "note": "Proved for blocks whose lines give values; missing numbers, which are not reported, are refuted."
  },
  {
   "property": "C107",
   "status": "partial",
   "theorems": [
    "C107_attempts",
    "C107_success",
    "C107_give_up",
    "C107_pitzer_refuted",
    "C107_none_refuted",
    "C107_count_refuted"
   ],
   "note": "Proved for all behaviours of a calculation that keeps what is in use; scaling of later attempts with Pitzer, limits below one and attempts left out are refuted."
  },
  {
   "property": "C108",
   "status": "partial",
   "theorems": [
    "C108_settings",
    "C108_thrown_refuted",
    "C108_fixed_volume_refuted",
    "C108_recovers",
    "C108_none_refuted",
    "C108_initial",
    "C108_density_refuted"
   ],
   "note": "Proved for calculations that are not broken off; those that are, numerical_fixed_volume, and initial solutions whose density is sought are refuted."
  },
  {
   "property": "C109",
   "status": "partial",
   "theorems": [
    "C109_spelling",
    "C109_parts",
    "C109_refused",
    "C109_standard",
    "C109_longer_refuted"
   ],
   "note": "Proved for all spellings made of the names in the code; units followed by further letters, which are taken for the shorter unit, are refuted."
  },
  {
   "property": "C110",
   "status": "partial",
   "theorems": [
    "C110_compatible",
    "C110_default_refuted"
   ],
   "note": "Proved for the units given with an element; the units of the solution, accepted in equivalents for every element, are refuted."
  },
  {
   "property": "C111",
   "status": "partial",
   "theorems": [
    "C111_solution",
    "C111_water",
    "C111_iterated",
    "C111_reported",
    "C111_isotopes",
    "C111_equivalents_refuted",
    "C111_default_refuted",
    "C111_negative_refuted"
   ],
   "note": "Proved for grams and moles, and for water as denominator with equivalents; equivalents per kilogram of solution, equivalents of a solution and negative concentrations are refuted. Exact rationals."
  },
  {
   "property": "C112",
   "status": "proved",
   "theorems": [
    "C112_file",
    "C112_unknown"
   ],
   "note": "Proved for all choices and histories; texts of numbers and dates are arguments, names are shorter than 50 characters."
  },
  {
   "property": "C113",
   "status": "partial",
   "theorems": [
    "C113_dimensions",
    "C113_real",
    "C113_one_dimension",
    "C113_integer_refuted"
   ],
   "note": "Proved for real variables, and for integers when there is one dimension; integers are written to the file of another dimension (refuted)."
  },
  {
   "property": "C114",
   "status": "partial",
   "theorems": [
    "C114_rayleigh",
    "C114_lighter",
    "C114_unchanged",
    "C114_moles",
    "C114_other",
    "C114_saturated_refuted"
   ],
   "note": "Proved for air that is not more than saturated; above saturation the diffusive part changes its sign (refuted). The power is an argument; exact rationals."
  },
  {
   "property": "C115",
   "status": "partial",
   "theorems": [
    "C115_positive",
    "C115_increasing",
    "C115_vapour",
    "C115_limit_refuted",
    "C115_freezing_refuted",
    "C115_cold_refuted",
    "C115_slope",
    "C115_wet_bulb",
    "C115_saturated",
    "C115_precipitation",
    "C115_mixed_refuted"
   ],
   "note": "Vapour pressure is kept and positive; humidity above one, the jump at freezing, the turn far below freezing and the mixed temperatures for precipitation are refuted. That the iteration ends is proved for saturated air only. Exact rationals."
  },
  {
   "property": "C116",
   "status": "proved",
   "theorems": [
    "C116_fractions",
    "C116_value",
    "C116_none",
    "C116_balanced",
    "C116_lengths"
   ],
   "note": "Factors, their sum, value, symmetry and the case without mixing are proved for all proper columns; value and symmetry ask that all cells have a dispersivity when there is flow (without, see C117_leftover_refuted)."
  },
  {
   "property": "C117",
   "status": "partial",
   "theorems": [
    "C117_mix",
    "C117_balance",
    "C117_shift",
    "C117_diffusion",
    "C117_piston",
    "C117_start",
    "C117_range",
    "C117_closed",
    "C117_flux",
    "C117_leftover_refuted"
   ],
   "note": "Proved for columns where all cells have a dispersivity or there is no flow. Refuted for the rest: the mean dispersivity left over from another pair of cells is used for a cell without dispersivity, and a tracer is created."
  },
  {
   "property": "C118",
   "status": "partial",
   "theorems": [
    "C118_takes_place",
    "C118_value",
    "C118_range",
    "C118_sum",
    "C118_closed",
    "C118_small_refuted"
   ],
   "note": "Value, range and sum are proved. Refuted: differences of up to a degree from solution 0 never even out."
  },
  {
   "property": "C119",
   "status": "proved",
   "theorems": [
    "C119_dry",
    "C119_rain",
    "C119_cold",
    "C119_warmer",
    "C119_deficit",
    "C119_deficit_sign",
    "C119_index",
    "C119_sublimation",
    "C119_periods",
    "C119_period_values"
   ],
   "note": "All rates and temperatures are proved for exact rationals; the exponential function is an argument. The melt factor itself is in C50."
  },
  {
   "property": "C120",
   "status": "partial",
   "theorems": [
    "C120_macropores",
    "C120_direct",
    "C120_stream",
    "C120_leakage",
    "C120_base",
    "C120_mean_deficit",
    "C120_index",
    "C120_transpiration",
    "C120_wilted",
    "C120_wet_soil_refuted",
    "C120_capacities"
   ],
   "note": "Proved for exact rationals. Refuted: within one percent of field capacity the share of the vegetation is left out. The laws of base flow beyond the largest deficit are refuted in C63."
  },
  {
   "property": "C121",
   "status": "partial",
   "theorems": [
    "C121_totals",
    "C121_means",
    "C121_extremes",
    "C121_balance",
    "C121_error",
    "C121_first_step_refuted",
    "C121_run_error",
    "C121_water_only",
    "C121_objectives",
    "C121_lines_add_up",
    "C121_run_line",
    "C121_weighted",
    "C121_no_input",
    "C121_no_output_refuted",
    "C121_switches",
    "C121_daily_steps",
    "C121_frequency_refuted",
    "C121_watts",
    "C121_error_shows"
   ],
   "note": "Totals, means, extremes, weighted averages, addition of lines, objective functions and balance are proved for exact rationals. Refuted: the error of the first step is reported as zero whatever it did; averages of outflow, evaporation and outlet divide by zero when nothing flowed; print frequencies above 31 lose the line of the run. The texts of the lines are not modelled."
  },
  {
   "property": "C122",
   "status": "partial",
   "theorems": [
    "C122_number",
    "C122_range",
    "C122_backwards_refuted",
    "C122_no_number",
    "C122_ordered",
    "C122_point_refuted",
    "C122_letters_refuted",
    "C122_copies",
    "C122_list",
    "C122_positive",
    "C122_negative_refuted"
   ],
   "note": "Proved for all lines. Refuted: a range written backwards is accepted and defines only its first number; a description that begins with a point loses its first word; letters after the number without a blank are dropped; a negative number in a list is always an error."
  },
  {
   "property": "C123",
   "status": "proved",
   "theorems": [
    "C123_days",
    "C123_numbers",
    "C123_order",
    "C123_years",
    "C123_water_year",
    "C123_seconds"
   ],
   "note": "Proved for all dates from the year 1 on, with unbounded integers (the code has 32 bits, enough for the years to a million)."
  },
  {
   "property": "C124",
   "status": "partial",
   "theorems": [
    "C124_between",
    "C124_ends",
    "C124_sliding",
    "C124_sliding_within",
    "C124_missing_refuted",
    "C124_short_refuted",
    "C124_fixed",
    "C124_fixed_refuted",
    "C124_tail_refuted",
    "C124_interval",
    "C124_local",
    "C124_no_minimum_refuted",
    "C124_rising_refuted",
    "C124_one_minimum",
    "C124_short_local_refuted"
   ],
   "note": "Proved for exact rationals; local minima for records without missing values. Refuted: one missing day makes the base flow of its neighbours negative; records shorter than the interval are read beyond their end or have no base flow; a record without a local minimum, as one that rises throughout, gets -999; a missing day among the last eleven makes the base flow of the last day zero."
  },
  {
   "property": "C125",
   "status": "partial",
   "theorems": [
    "C125_sort",
    "C125_median",
    "C125_quantile",
    "C125_below_refuted",
    "C125_monotone",
    "C125_half",
    "C125_alone_refuted"
   ],
   "note": "Sorting, medians and quantiles are proved for exact rationals. Refuted: for small shares in short records quantiles are below all the numbers; a quantile found alone uses another count than one found among several, and for one half is not the median."
  },
  {
   "property": "C126",
   "status": "partial",
   "theorems": [
    "C126_add",
    "C126_line",
    "C126_bounds",
    "C126_after_refuted",
    "C126_before_refuted"
   ],
   "note": "Proved for exact rationals and periods within the record. Refuted: a period that ends after the last sample has the volume -3.1e37 without an error; one that begins before the first sample is accepted, with the first line drawn on backwards."
  },
  {
   "property": "C127",
   "status": "proved",
   "theorems": [
    "C127_time_base",
    "C127_within",
    "C127_one"
   ],
   "note": "Proved for exact rationals, days of 32 bits and times within the record, as TIME_BASE checks them."
  },
  {
   "property": "C128",
   "status": "partial",
   "theorems": [
    "C128_monthly",
    "C128_order",
    "C128_annual",
    "C128_january_refuted",
    "C128_samples_refuted"
   ],
   "note": "Proved for day numbers of 32 bits from the year 1 on; for years when January and December have samples. Refuted: a year with 350 samples or more but none in January has a period that begins on day number 2147483647; samples are counted, not days, so that 25 samples of one day are taken for a month."
  }
 ]
}