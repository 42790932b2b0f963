{
 "claims": [
  {
   "property": "C01",
   "status": "proved",
   "theorems": [
    "flow_chart_is_rule_table",
    "flow_chart_steps_documented",
    "flow_chart_unknown_names",
    "undefined_states_have_no_step"
   ],
   "note": "Equality with an independent rule table for every key, known or unknown."
  },
  {
   "property": "C02",
   "status": "proved",
   "theorems": [
    "flow_chart_mirror_iff",
    "flow_chart_mirror_exception",
    "flow_chart_mirror_refuted"
   ],
   "note": "Exact characterisation; unrestricted symmetry is refuted with a witness (contact, oCE1)."
  },
  {
   "property": "C03",
   "status": "proved",
   "theorems": [
    "terminal_situations_end"
   ],
   "note": "If and only if, for all total states with known names."
  },
  {
   "property": "C04",
   "status": "proved",
   "theorems": [
    "flow_chart_overrides",
    "default_chart_never_modified",
    "new_keys_ignored"
   ],
   "note": "Heap model of dictionaries; any sequence of calls."
  },
  {
   "property": "C05",
   "status": "proved",
   "theorems": [
    "eccentric_chart_exact"
   ],
   "note": "Pointwise equality with the expected chart for every base chart and change dictionary."
  },
  {
   "property": "C06",
   "status": "proved",
   "theorems": [
    "evolve_runs_bounded_steps",
    "evolve_with_limit_terminates",
    "evolve_returns_when_stopped",
    "evolve_disarms_alarm",
    "post_evolve_runs_once"
   ],
   "note": "Steps, hooks and extra functions are arbitrary, possibly raising, functions with private state."
  },
  {
   "property": "C07",
   "status": "proved",
   "theorems": [
    "histories_stay_aligned",
    "assigning_callables_are_well_behaved",
    "append_records_current_values",
    "redirects_add_no_row"
   ],
   "note": "Invariant over all sessions."
  },
  {
   "property": "C08",
   "status": "proved",
   "theorems": [
    "restore_returns_to_record",
    "restore_negative_index",
    "restore_last_empties_histories",
    "restore_out_of_range",
    "restore_compositional",
    "restore_missing_column_refuted"
   ],
   "note": "All indices covered; the -1 and missing-column deviations are proved as such."
  },
  {
   "property": "C09",
   "status": "proved",
   "theorems": [
    "hooks_nest_around_steps",
    "hooks_nest_around_one_step"
   ],
   "note": "Call-log grammar, all outcomes."
  },
  {
   "property": "C10",
   "status": "proved",
   "theorems": [
    "hook_column_one_entry_per_row",
    "hook_column_fits_at_end",
    "step_names_column_contents",
    "restore_keeps_hook_column",
    "timing_hooks_keep_a_column",
    "step_names_hooks_keep_a_column",
    "hook_column_trim_refuted"
   ],
   "note": "The shortening branch is off by one (refuted)."
  },
  {
   "property": "C100",
   "status": "proved",
   "theorems": [
    "C100_orbit",
    "C100_filling",
    "C100_compact",
    "C100_overflow",
    "C100_collapse",
    "C100_simultaneous",
    "C100_collapse_refuted",
    "C100_next",
    "C100_begin"
   ],
   "note": "The outcome of the integration is arbitrary; times of events are positive; the stored orbit follows Kepler's law."
  },
  {
   "property": "C101",
   "status": "proved",
   "theorems": [
    "C101_dt",
    "C101_steps",
    "C101_end",
    "C101_priority",
    "C101_dt_refuted"
   ],
   "note": "Rational numbers; numpy.arange as documented."
  },
  {
   "property": "C102",
   "status": "proved",
   "theorems": [
    "C102_rigid",
    "C102_fallback",
    "C102_kept",
    "C102_conservation_refuted",
    "C102_unknown",
    "C102_unknown_refuted"
   ],
   "note": "Real numbers."
  },
  {
   "property": "C103",
   "status": "proved",
   "theorems": [
    "C103_all",
    "C103_stored",
    "C103_units_refuted",
    "C103_consistent",
    "C103_no_spin",
    "C103_mdot",
    "C103_binary"
   ],
   "note": "Values at the points of the track."
  },
  {
   "property": "C104",
   "status": "proved",
   "theorems": [
    "C104_rows",
    "C104_row",
    "C104_states_refuted"
   ],
   "note": ""
  },
  {
   "property": "C105",
   "status": "proved",
   "theorems": [
    "C105_limit",
    "C105_mass",
    "C105_white_dwarf",
    "C105_white_dwarf_refuted",
    "C105_accretor",
    "C105_last",
    "C105_rows_refuted",
    "C105_before_collapse",
    "C105_missing_state"
   ],
   "note": "Real numbers."
  },
  {
   "property": "C106",
   "status": "proved",
   "theorems": [
    "C106_apparent",
    "C106_factor",
    "C106_monotone",
    "C106_monotone_refuted"
   ],
   "note": "Real numbers."
  },
  {
   "property": "C107",
   "status": "proved",
   "theorems": [
    "C107_hurley",
    "C107_range",
    "C107_giant_refuted",
    "C107_schemes",
    "C107_wolf_rayet",
    "C107_other_winds",
    "C107_anomaly",
    "C107_orbit",
    "C107_mirror",
    "C107_fraction",
    "C107_limited",
    "C107_more_than_lost",
    "C107_more_than_lost_refuted"
   ],
   "note": "Real numbers; a solution of Kepler's equation as found by Newton's method is assumed."
  },
  {
   "property": "C108",
   "status": "proved",
   "theorems": [
    "C108_boundary",
    "C108_no_columns",
    "C108_by_mass",
    "C108_all_envelope_refuted"
   ],
   "note": "Abundances of each shell add up to 1."
  },
  {
   "property": "C109",
   "status": "proved",
   "theorems": [
    "C109_shells",
    "C109_columns",
    "C109_energy",
    "C109_bound",
    "C109_recombination",
    "C109_recombination_range",
    "C109_internal",
    "C109_options",
    "C109_check",
    "C109_check_refuted",
    "C109_log_R_refuted"
   ],
   "note": "Real numbers."
  },
  {
   "property": "C11",
   "status": "proved",
   "theorems": [
    "existence_codes",
    "existence_codes_mirror",
    "switch_star_exchanges"
   ],
   "note": ""
  },
  {
   "property": "C110",
   "status": "proved",
   "theorems": [
    "C110_lambda",
    "C110_gravity",
    "C110_units",
    "C110_limits",
    "C110_accreted",
    "C110_CO_core_refuted"
   ],
   "note": "Real numbers; the warnings are not modelled."
  },
  {
   "property": "C111",
   "status": "proved",
   "theorems": [
    "C111_ejected",
    "C111_range",
    "C111_monotone",
    "C111_nothing_refuted"
   ],
   "note": "Real numbers; enclosed masses and radii decrease inwards."
  },
  {
   "property": "C112",
   "status": "proved",
   "theorems": [
    "C112_between",
    "C112_within",
    "C112_search",
    "C112_outside_refuted"
   ],
   "note": "Real numbers."
  },
  {
   "property": "C113",
   "status": "proved",
   "theorems": [
    "C113_rule",
    "C113_mirror"
   ],
   "note": "NaN is not modelled."
  },
  {
   "property": "C114",
   "status": "proved",
   "theorems": [
    "C114_rule",
    "C114_wide_refuted",
    "C114_mirror_refuted"
   ],
   "note": "NaN is not modelled."
  },
  {
   "property": "C115",
   "status": "proved",
   "theorems": [
    "C115_rule",
    "C115_mirror_refuted"
   ],
   "note": "NaN is not modelled."
  },
  {
   "property": "C116",
   "status": "proved",
   "theorems": [
    "C116_rule",
    "C116_mirror_refuted",
    "C116_eccentricity"
   ],
   "note": "NaN is not modelled."
  },
  {
   "property": "C117",
   "status": "proved",
   "theorems": [
    "C117_rule",
    "C117_mirror_refuted"
   ],
   "note": "NaN is not modelled."
  },
  {
   "property": "C118",
   "status": "proved",
   "theorems": [
    "C118_sent",
    "C118_forgotten_refuted",
    "C118_lost",
    "C118_eccentric"
   ],
   "note": "Events and states of the charts as in C01 to C10."
  },
  {
   "property": "C119",
   "status": "proved",
   "theorems": [
    "C119_boundaries"
   ],
   "note": "NaN as no value."
  },
  {
   "property": "C12",
   "status": "proved",
   "theorems": [
    "flip_stars_involution",
    "flip_stars_exchanges",
    "flip_stars_mirrors_total_state",
    "flip_stars_same_next_step",
    "flip_stars_next_step_refuted"
   ],
   "note": "Exact set of events that are not mirrored."
  },
  {
   "property": "C120",
   "status": "proved",
   "theorems": [
    "C120_histories",
    "C120_twice",
    "C120_neither",
    "C120_neither_refuted",
    "C120_mismatch_refuted"
   ],
   "note": "Rational times."
  },
  {
   "property": "C121",
   "status": "proved",
   "theorems": [
    "C121_interpolated",
    "C121_state_refuted",
    "C121_end",
    "C121_reset"
   ],
   "note": "Rational times; interpolated properties hold numbers."
  },
  {
   "property": "C122",
   "status": "proved",
   "theorems": [
    "C122_never_beyond",
    "C122_ending",
    "C122_nearest",
    "C122_flushed",
    "C122_flushed_end",
    "C122_condition",
    "C122_condition_refuted",
    "C122_condition_untracked_refuted",
    "C122_condition_met_refuted",
    "C122_initial_overflow"
   ],
   "note": "Rational times."
  },
  {
   "property": "C123",
   "status": "proved",
   "theorems": [
    "C123_limited",
    "C123_tracked",
    "C123_tracked_refuted"
   ],
   "note": "Real numbers."
  },
  {
   "property": "C124",
   "status": "proved",
   "theorems": [
    "C124_spin",
    "C124_monotone",
    "C124_undefined"
   ],
   "note": "Real numbers."
  },
  {
   "property": "C125",
   "status": "proved",
   "theorems": [
    "C125_radius",
    "C125_momentum",
    "C125_range",
    "C125_energy"
   ],
   "note": "Real numbers."
  },
  {
   "property": "C126",
   "status": "proved",
   "theorems": [
    "C126_cut",
    "C126_nearest"
   ],
   "note": "Real numbers."
  },
  {
   "property": "C127",
   "status": "proved",
   "theorems": [
    "C127_shell",
    "C127_centre",
    "C127_remnant",
    "C127_no_rotation",
    "C127_more_refuted",
    "C127_disk",
    "C127_neutrinos",
    "C127_units_refuted",
    "C127_uncapped_refuted"
   ],
   "note": "Real numbers; Simpson's rule is an input."
  },
  {
   "property": "C128",
   "status": "proved",
   "theorems": [
    "C128_masses",
    "C128_bound",
    "C128_monotone",
    "C128_partial_shell_refuted",
    "C128_verbose_refuted"
   ],
   "note": "Real numbers."
  },
  {
   "property": "C129",
   "status": "proved",
   "theorems": [
    "C129_chain",
    "C129_gap_refuted"
   ],
   "note": "Real numbers, NaN as a value; infinities are treated as NaN."
  },
  {
   "property": "C13",
   "status": "proved",
   "theorems": [
    "mt_summary",
    "mt_summary_determined",
    "mt_summary_empty",
    "mt_summary_names",
    "mt_summary_unknown_name",
    "mt_text_of_cases",
    "mt_text_faithful",
    "mt_text_warnings",
    "mt_flag",
    "mt_shift",
    "mt_shift_monotone",
    "mt_shift_ordered",
    "mt_shift_after_undetermined",
    "mt_shift_harmless_refuted"
   ],
   "note": "Python ints and strings as case codes; the shift_cases option is shown to lose or invent cases."
  },
  {
   "property": "C130",
   "status": "proved",
   "theorems": [
    "C130_sum",
    "C130_missing",
    "C130_field_refuted",
    "C130_negative_refuted"
   ],
   "note": "Real numbers."
  },
  {
   "property": "C131",
   "status": "proved",
   "theorems": [
    "C131_region",
    "C131_missing",
    "C131_fail_refuted"
   ],
   "note": "Real numbers; with rounding, near the exceptional lines, either may happen."
  },
  {
   "property": "C132",
   "status": "proved",
   "theorems": [
    "C132_together",
    "C132_order",
    "C132_length_refuted"
   ],
   "note": "Real numbers."
  },
  {
   "property": "C133",
   "status": "proved",
   "theorems": [
    "C133_first",
    "C133_later",
    "C133_narrowed_refuted"
   ],
   "note": ""
  },
  {
   "property": "C134",
   "status": "proved",
   "theorems": [
    "C134_series",
    "C134_exact",
    "C134_outside",
    "C134_age",
    "C134_jump_refuted"
   ],
   "note": "Exact rational numbers."
  },
  {
   "property": "C135",
   "status": "proved",
   "theorems": [
    "C135_final",
    "C135_exact",
    "C135_hole_refuted"
   ],
   "note": "Exact rational numbers."
  },
  {
   "property": "C136",
   "status": "proved",
   "theorems": [
    "C136_nearest",
    "C135_exact"
   ],
   "note": "Exact rational numbers."
  },
  {
   "property": "C137",
   "status": "proved",
   "theorems": [
    "C137_profile"
   ],
   "note": "Exact rational numbers."
  },
  {
   "property": "C138",
   "status": "proved",
   "theorems": [
    "C138_nearest",
    "C138_own",
    "C138_train",
    "C138_order_refuted",
    "C138_keys",
    "C138_method_refuted"
   ],
   "note": "Real numbers; scikit-learn's search is taken to give a nearest point."
  },
  {
   "property": "C139",
   "status": "proved",
   "theorems": [
    "C139_used",
    "C139_kept",
    "C139_missing_refuted",
    "C139_history_refuted"
   ],
   "note": "The arrays XT and YT are given."
  },
  {
   "property": "C14",
   "status": "proved",
   "theorems": [
    "mt_case_no_rlo",
    "mt_case_documented",
    "mt_case_undetermined",
    "mt_case_word",
    "mt_case_word_unique",
    "mt_case_raises",
    "mt_case_range"
   ],
   "note": "Comparison-only code, floats exact (NaN and infinities included)."
  },
  {
   "property": "C140",
   "status": "proved",
   "theorems": [
    "C140_outputs",
    "C140_inputs",
    "C140_unknown",
    "C140_shift_refuted",
    "C140_documented_refuted",
    "C140_alike_refuted"
   ],
   "note": "Real arithmetic; the choice of scalings by cross validation is not modelled."
  },
  {
   "property": "C141",
   "status": "proved",
   "theorems": [
    "C141_exact",
    "C141_between",
    "C141_other",
    "C141_initial",
    "C141_single_refuted"
   ],
   "note": "Before sanitisation (C129-C133), which is a parameter.  scipy's interpolator is assumed to reproduce the data and to stay between them, scikit-learn's neighbours to give one of the data."
  },
  {
   "property": "C142",
   "status": "proved",
   "theorems": [
    "C142_keys",
    "C142_check",
    "C142_union"
   ],
   "note": ""
  },
  {
   "property": "C143",
   "status": "proved",
   "theorems": [
    "C143_split",
    "C143_stratified",
    "C143_folds_refuted"
   ],
   "note": "Shuffling is a parameter, any permutation."
  },
  {
   "property": "C144",
   "status": "proved",
   "theorems": [
    "C144_filled"
   ],
   "note": "The nearest neighbour is a parameter, assumed to be one of the data."
  },
  {
   "property": "C145",
   "status": "proved",
   "theorems": [
    "C145_period",
    "C145_mass",
    "C145_range"
   ],
   "note": "Real arithmetic; continuity as Lipschitz continuity."
  },
  {
   "property": "C146",
   "status": "proved",
   "theorems": [
    "C146_quadrature",
    "C146_q",
    "C146_P",
    "C146_e",
    "C146_cut",
    "C146_refused",
    "C146_gap_refuted"
   ],
   "note": "Real arithmetic."
  },
  {
   "property": "C147",
   "status": "proved",
   "theorems": [
    "C147_range",
    "C147_single",
    "C147_distribution",
    "C147_ecc",
    "C147_low_mass",
    "C147_pile_refuted",
    "C147_minimum_refuted"
   ],
   "note": "Real arithmetic; the random numbers are a parameter."
  },
  {
   "property": "C148",
   "status": "proved",
   "theorems": [
    "C148_own_rows",
    "C148_lacking",
    "C148_order_refuted"
   ],
   "note": "Channels without missing values."
  },
  {
   "property": "C149",
   "status": "proved",
   "theorems": [
    "C149_rows",
    "C149_twice",
    "C149_inspiral"
   ],
   "note": "Columns chirp_mass, mass_ratio and chi_eff are subject of C48; real arithmetic."
  },
  {
   "property": "C15",
   "status": "proved",
   "theorems": [
    "binary_state_now",
    "binary_state_at",
    "binary_state_early",
    "binary_state_events",
    "binary_state_mirror",
    "binary_state_array",
    "binary_state_mirror_refuted",
    "binary_state_history_refuted"
   ],
   "note": "Mirror symmetry proved off ties and refuted on ties."
  },
  {
   "property": "C150",
   "status": "proved",
   "theorems": [
    "C150_unknown",
    "C150_weights",
    "C150_nearest",
    "C150_labels_refuted",
    "C150_few"
   ],
   "note": "Real arithmetic; scikit-learn's regressor is modelled by its documentation."
  },
  {
   "property": "C151",
   "status": "proved",
   "theorems": [
    "C151_columns",
    "C151_dirs",
    "C151_failure",
    "C151_slice_refuted"
   ],
   "note": "Names of the models distinct, as keys of a dictionary."
  },
  {
   "property": "C152",
   "status": "proved",
   "theorems": [
    "C152_binary",
    "C152_single",
    "C152_one",
    "C152_settings",
    "C152_unknown",
    "C152_history_refuted"
   ],
   "note": "Exact arithmetic for the compositions."
  },
  {
   "property": "C153",
   "status": "proved",
   "theorems": [
    "C153_dirs",
    "C153_final",
    "C153_models",
    "C153_twice",
    "C153_accepted",
    "C153_lost_refuted",
    "C153_empty_refuted"
   ],
   "note": "Columns as long as the grid; HDF5 by its contents."
  },
  {
   "property": "C154",
   "status": "proved",
   "theorems": [
    "C154_strength",
    "C154_total",
    "C154_unknown"
   ],
   "note": "Over exact real numbers."
  },
  {
   "property": "C155",
   "status": "proved",
   "theorems": [
    "C155_given",
    "C155_every",
    "C155_defaults",
    "C155_abundances",
    "C155_compact",
    "C155_refuses",
    "C155_radius_refuted",
    "C155_white_dwarf_refuted",
    "C155_no_state",
    "C155_rest",
    "C155_extra",
    "C155_kick"
   ],
   "note": "The refuted theorems are the exceptions named in the statement; C155_no_state: a star without a state gets an empty text as state."
  },
  {
   "property": "C156",
   "status": "proved",
   "theorems": [
    "C156_given",
    "C156_orbit"
   ],
   "note": "Over exact real numbers; both given but inconsistent orbits are kept as they are (C156_given)."
  },
  {
   "property": "C157",
   "status": "proved",
   "theorems": [
    "C157_binary",
    "C157_stars",
    "C157_companion",
    "C157_none"
   ],
   "note": "C157_companion is the exception."
  },
  {
   "property": "C158",
   "status": "proved",
   "theorems": [
    "C158_star"
   ],
   "note": ""
  },
  {
   "property": "C159",
   "status": "proved",
   "theorems": [
    "C159_nested",
    "C159_others"
   ],
   "note": "Stars which have accreted helium are among the others."
  },
  {
   "property": "C16",
   "status": "proved",
   "theorems": [
    "compact_classes",
    "compact_state_of_star",
    "normal_star_state",
    "normal_star_total",
    "normal_star_names",
    "names_known_to_flow",
    "names_without_flow_stuck",
    "first_He_depletion",
    "star_state_array",
    "inferred_states_in_flow_refuted",
    "all_star_states_complete_refuted"
   ],
   "note": "Float subtraction, round(x,10) and log10(0.03) are arbitrary parameters of the theorems."
  },
  {
   "property": "C160",
   "status": "proved",
   "theorems": [
    "C160_array",
    "C160_rescue",
    "C160_submit",
    "C160_resubmit",
    "C160_equals_refuted"
   ],
   "note": "The scripts are read by a separate small reader of job arrays (RescueSpec).  C160_equals_refuted is the finding about equals signs."
  },
  {
   "property": "C161",
   "status": "proved",
   "theorems": [
    "C161_missing",
    "C161_batch",
    "C161_stale_refuted",
    "C161_merge_log_refuted"
   ],
   "note": "The two refutations are findings."
  },
  {
   "property": "C162",
   "status": "proved",
   "theorems": [
    "C162_passed",
    "C162_merge",
    "C162_folder",
    "C162_rescue",
    "C162_counts",
    "C162_mixed_refuted",
    "C162_short_refuted"
   ],
   "note": "C162_mixed_refuted: a complete and an incomplete metallicity together cannot be rescued.  C162_short_refuted, C162_counts: a wrong number of binaries leads nowhere."
  },
  {
   "property": "C163",
   "status": "proved",
   "theorems": [
    "C163_star",
    "C163_state",
    "C163_kept",
    "C163_binary"
   ],
   "note": "The inference of states is a parameter (modelled elsewhere, C14, C15)."
  },
  {
   "property": "C164",
   "status": "proved",
   "theorems": [
    "C164_compact",
    "C164_rate",
    "C164_radius_refuted",
    "C164_spin_refuted"
   ],
   "note": "The refutations are findings: the radius and the spin of compact objects."
  },
  {
   "property": "C165",
   "status": "proved",
   "theorems": [
    "C165_cores",
    "C165_collapse"
   ],
   "note": ""
  },
  {
   "property": "C166",
   "status": "proved",
   "theorems": [
    "C166_new",
    "C166_time",
    "C166_documented_refuted"
   ],
   "note": "C166_documented_refuted is a finding."
  },
  {
   "property": "C167",
   "status": "proved",
   "theorems": [
    "C167_selected",
    "C167_counts"
   ],
   "note": ""
  },
  {
   "property": "C168",
   "status": "proved",
   "theorems": [
    "C168_compress",
    "C168_lossless",
    "C168_space_refuted",
    "C168_core_refuted",
    "C168_link_refuted",
    "C168_again_refuted"
   ],
   "note": "gzip is modelled for single files; the shell's splitting of words at spaces is modelled.  The refutations are findings."
  },
  {
   "property": "C169",
   "status": "proved",
   "theorems": [
    "C169_textsize",
    "C169_refused",
    "C169_rounding_refuted"
   ],
   "note": "The formatting of the quantity is not modelled."
  },
  {
   "property": "C17",
   "status": "proved",
   "theorems": [
    "C17_laws",
    "C17_increasing",
    "C17_round_trip",
    "C17_inverse_refuted"
   ],
   "note": "Real numbers instead of floats."
  },
  {
   "property": "C170",
   "status": "proved",
   "theorems": [
    "C170_phases",
    "C170_order",
    "C170_ends_refuted"
   ],
   "note": "Numbers are exact and not NaN."
  },
  {
   "property": "C171",
   "status": "proved",
   "theorems": [
    "C171_table",
    "C171_metric",
    "C171_extrapolates_refuted",
    "C171_order_refuted",
    "C171_none_refuted"
   ],
   "note": "pchip is a parameter with its checks of arguments."
  },
  {
   "property": "C172",
   "status": "proved",
   "theorems": [
    "C172_closest",
    "C172_unknown",
    "C172_factors_refuted",
    "C172_name_refuted"
   ],
   "note": "Distances are compared before the square root, which keeps their order; exact numbers."
  },
  {
   "property": "C173",
   "status": "proved",
   "theorems": [
    "C173_tried",
    "C173_refused",
    "C173_names",
    "C173_bounds",
    "C173_accreted_refuted",
    "C173_repeated_refuted",
    "C173_alternative"
   ],
   "note": "scipy.optimize.minimize is any function of what it is asked."
  },
  {
   "property": "C174",
   "status": "proved",
   "theorems": [
    "C174_first",
    "C174_best",
    "C174_error",
    "C174_error_refuted",
    "C174_grid_refuted",
    "C174_root"
   ],
   "note": "Tolerances are below 1e99."
  },
  {
   "property": "C175",
   "status": "proved",
   "theorems": [
    "C175_rows",
    "C175_last",
    "C175_end",
    "C175_end_refuted"
   ],
   "note": ""
  },
  {
   "property": "C176",
   "status": "proved",
   "theorems": [
    "C176_matched",
    "C176_complete",
    "C176_unbound_refuted",
    "C176_failed"
   ],
   "note": ""
  },
  {
   "property": "C177",
   "status": "proved",
   "theorems": [
    "C177_task",
    "C177_distinct",
    "C177_rescue",
    "C177_rescue_refuted",
    "C177_entropy_refuted",
    "C177_mpi",
    "C177_refused"
   ],
   "note": "Streams are told apart by entropy and spawn key; that numpy's SeedSequence gives different numbers for those is trusted."
  },
  {
   "property": "C178",
   "status": "proved",
   "theorems": [
    "C178_first",
    "C178_metallicity",
    "C178_index",
    "C178_loaded",
    "C178_shared_refuted",
    "C178_by_hand_refuted",
    "C178_time_refuted",
    "C178_refused_refuted"
   ],
   "note": ""
  },
  {
   "property": "C179",
   "status": "proved",
   "theorems": [
    "C179_files",
    "C179_shared",
    "C179_refused",
    "C179_ini",
    "C179_atomic_refuted",
    "C179_negative_refuted",
    "C179_twice_refuted",
    "C179_apostrophe_refuted"
   ],
   "note": "How scripts are read by Slurm, shell and Python is a small specification (RescueSpec, SetupProps)."
  },
  {
   "property": "C18",
   "status": "proved",
   "theorems": [
    "C18_elementwise",
    "C18_shapes",
    "C18_numbers",
    "C18_check",
    "C18_nan_is_overflow",
    "C18_arguments_kept_refuted"
   ],
   "note": "Real numbers and NaN instead of floats; infinities and arrays with more axes are not modelled."
  },
  {
   "property": "C180",
   "status": "proved",
   "theorems": [
    "C180_oneline",
    "C180_history",
    "C180_all",
    "C180_columns",
    "C180_long_refuted",
    "C180_apart_refuted",
    "C180_negative_refuted",
    "C180_selector_refuted"
   ],
   "note": ""
  },
  {
   "property": "C181",
   "status": "proved",
   "theorems": [
    "C181_file",
    "C181_written",
    "C181_argument",
    "C181_argument_refuted",
    "C181_twice_refuted",
    "C181_replaced_refuted",
    "C181_no_columns"
   ],
   "note": ""
  },
  {
   "property": "C182",
   "status": "proved",
   "theorems": [
    "C182_file",
    "C182_kinds",
    "C182_chosen",
    "C182_exclusive"
   ],
   "note": "Numbers are exact: logarithms are given as the numbers they belong to, and 1e-5 R sqrt(L) > 1 is R^2 L > 1e10."
  },
  {
   "property": "C183",
   "status": "proved",
   "theorems": [
    "C183_lines",
    "C183_sections",
    "C183_before",
    "C183_plain",
    "C183_reset_refuted",
    "C183_quotes_refuted"
   ],
   "note": "The lines are read by a relation of their own (text before the first exclamation mark, blanks removed, first equals sign), which every line meets in exactly one way; the result is compared with the last counting assignment in the tagged list."
  },
  {
   "property": "C184",
   "status": "proved",
   "theorems": [
    "C184",
    "C184_text",
    "C184_ignored_refuted"
   ],
   "note": "Uses C183 for what the templates know; MESA is assumed not to change its inlists."
  },
  {
   "property": "C185",
   "status": "proved",
   "theorems": [
    "C185",
    "C185_missing",
    "C185_third_refuted"
   ],
   "note": "C185_third_refuted: the third step does not use its own template, and --keep_profiles does not apply to it."
  },
  {
   "property": "C186",
   "status": "proved",
   "theorems": [
    "C186"
   ],
   "note": ""
  },
  {
   "property": "C187",
   "status": "proved",
   "theorems": [
    "C187_none",
    "C187_silent",
    "C187_optional",
    "C187_outside"
   ],
   "note": ""
  },
  {
   "property": "C188",
   "status": "proved",
   "theorems": [
    "C188_conserved",
    "C188_lost",
    "C188_never",
    "C188_hang",
    "C188_alone",
    "C188_pandas",
    "C188_reject",
    "C188_failed",
    "C188_all_recorded_refuted"
   ],
   "note": "C188_all_recorded_refuted: not all points which are sent are recorded when the grid has ended."
  },
  {
   "property": "C189",
   "status": "proved",
   "theorems": [
    "C189",
    "C189_pescalli",
    "C189_goldstein",
    "C189_accepts",
    "C189_nan",
    "C189_energy_refuted",
    "C189_isotropic_refuted"
   ],
   "note": "Arithmetic is exact; C189_energy_refuted: bursts without energy; C189_isotropic_refuted: isotropic energies below the energy."
  },
  {
   "property": "C19",
   "status": "proved",
   "theorems": [
    "rejection_pdf_exact",
    "rejection_table_exact",
    "rejection_arguments",
    "rejection_terminates_refuted",
    "histogram_exact",
    "histogram_in_bins",
    "inverse_exact"
   ],
   "note": "histogram normalisation and inverse sampling in exact arithmetic; scipy's interpolating function is a parameter."
  },
  {
   "property": "C190",
   "status": "proved",
   "theorems": [
    "C190",
    "C190_self",
    "C190_exact",
    "C190_binaries_refuted",
    "C190_none_refuted",
    "C190_warnings_refuted",
    "C190_errors_refuted"
   ],
   "note": "The four refuted statements are what one would expect of identical runs."
  },
  {
   "property": "C191",
   "status": "proved",
   "theorems": [
    "C191",
    "C191_chunks",
    "C191_frequencies",
    "C191_empty",
    "C191_contiguous_refuted",
    "C191_chunks_refuted",
    "C191_collision_refuted"
   ],
   "note": "The refuted statements show that both hypotheses are needed."
  },
  {
   "property": "C192",
   "status": "proved",
   "theorems": [
    "C192",
    "C192_plots",
    "C192_checks",
    "C192_twice_refuted",
    "C192_attributes",
    "C192_sections",
    "C192_nothing"
   ],
   "note": "A set listed twice is replaced once and then taken for the name of a plot (refuted theorem)."
  },
  {
   "property": "C193",
   "status": "proved",
   "theorems": [
    "C193_count",
    "C193_step1",
    "C193_step3",
    "C193_step4",
    "C193_step5",
    "C193_plots4",
    "C193_plots5",
    "C193_drop",
    "C193_keep",
    "C193_made",
    "C193_array",
    "C193_checks4_refuted",
    "C193_checks5_refuted",
    "C193_overwrite_refuted"
   ],
   "note": "step_2 is not modelled.  The refuted theorems are defects: the two conditions of lines 1070-1081 are the wrong way round."
  },
  {
   "property": "C194",
   "status": "proved",
   "theorems": [
    "C194",
    "C194_total",
    "C194_drop",
    "C194_keep",
    "C194_chain",
    "C194_complete",
    "C194_relative_refuted"
   ],
   "note": "os.path.normpath is a parameter of which the chain assumes that it keeps the paths of step 1; the refuted theorem is a defect for PATH_TO_GRIDS not in normal form."
  },
  {
   "property": "C195",
   "status": "proved",
   "theorems": [
    "C195",
    "C195_hidden",
    "C195_grid_job",
    "C195_grid_controls",
    "C195_output",
    "C195_chain",
    "C195_binary",
    "C195_steps",
    "C195_step",
    "C195_lengths"
   ],
   "note": "Grids of single stars are not modelled; reading a file is a parameter (clean_inlist_file has a model of its own)."
  },
  {
   "property": "C196",
   "status": "proved",
   "theorems": [
    "C196",
    "C196_formed",
    "C196_type",
    "C196_psycris_refuted",
    "C196_optional_refuted"
   ],
   "note": "argparse is modelled for the options given; words are those of a shell without quoting.  The refuted theorems are defects."
  },
  {
   "property": "C20",
   "status": "proved",
   "theorems": [
    "split_partition",
    "split_once",
    "split_refused",
    "split_serial",
    "split_again_refuted"
   ],
   "note": ""
  },
  {
   "property": "C21",
   "status": "proved",
   "theorems": [
    "saved_batches",
    "batch_times",
    "saved_once",
    "saved_without_ram",
    "kept_in_memory",
    "saved_nothing_refuted"
   ],
   "note": "Conversion failures are treated in C23, rejected appends in C24; crashes between two file operations are not modelled."
  },
  {
   "property": "C22",
   "status": "proved",
   "theorems": [
    "failures_contained",
    "failures_independent",
    "failed_marked",
    "saved_batches"
   ],
   "note": "Exceptions are those caught by `except Exception`; KeyboardInterrupt/SystemExit are not modelled. The warnings of a binary are POSYDON warnings with level >= 2 and no error filter."
  },
  {
   "property": "C23",
   "status": "proved",
   "theorems": [
    "breakdown_result",
    "tables_of_binaries",
    "tables_stored",
    "save_with_failing_binary",
    "save_touches",
    "kept_binary_hides_tables_refuted",
    "failing_table_refuted"
   ],
   "note": "The original claim (nothing is lost) is refuted by kept_binary_hides_tables_refuted and failing_table_refuted."
  },
  {
   "property": "C24",
   "status": "proved",
   "theorems": [
    "combined_all",
    "combined_untouched",
    "combined_bad_first",
    "combined_skips_refuted",
    "combined_loses_refuted"
   ],
   "note": "Mass sums are exact rationals instead of rounded doubles."
  },
  {
   "property": "C25",
   "status": "proved",
   "theorems": [
    "indices_aligned",
    "indices_collection",
    "remove_raises",
    "aligned_duplicates_refuted",
    "append_list_refuted"
   ],
   "note": "Indices of stored binaries do not change."
  },
  {
   "property": "C26",
   "status": "proved",
   "theorems": [
    "by_iter_nth",
    "by_iter_first",
    "by_iter_one_raises",
    "by_iter_random_times_refuted",
    "by_iter_default_scheme_refuted",
    "by_iter_rejection_refuted"
   ],
   "note": "The unconditional claim is refuted. The seed sequence (entropy, spawn_key) is the initial state of the stream."
  },
  {
   "property": "C27",
   "status": "proved",
   "theorems": [
    "file_samples_cyclic",
    "file_kicks_cyclic",
    "file_binary_is_row",
    "file_empty_stuck",
    "file_empty_kicks_stuck",
    "file_sequence_refuted",
    "file_zero_binaries_refuted"
   ],
   "note": ""
  },
  {
   "property": "C28",
   "status": "proved",
   "theorems": [
    "infer_key_exact",
    "infer_key_found",
    "alias_lists"
   ],
   "note": "str.casefold is an arbitrary function."
  },
  {
   "property": "C29",
   "status": "proved",
   "theorems": [
    "secondary_bounds",
    "secondary_bounds_exact",
    "secondary_succeeds",
    "secondary_at_limit_refuted",
    "secondary_rounding_refuted",
    "moe_bins",
    "singles_keep_primary",
    "equal_masses_exact",
    "equal_masses_primary_refuted"
   ],
   "note": "The strict limits are refuted in double precision (secondary_rounding_refuted); the Moe+17-PsandQs branch is not modelled."
  },
  {
   "property": "C30",
   "status": "proved",
   "theorems": [
    "history_by_label",
    "oneline_by_label",
    "history_full_slice_refuted",
    "history_columns",
    "history_unknown_column",
    "history_mask_exact",
    "history_mask_refuted",
    "oneline_mask_exact",
    "oneline_empty_mask_refuted",
    "history_length",
    "tail_last",
    "tail_zero_refuted"
   ],
   "note": "Masks given as data frames are not modelled. [:] and label slices refer to labels 0..n-1, so they miss larger labels (history_full_slice_refuted)."
  },
  {
   "property": "C31",
   "status": "proved",
   "theorems": [
    "export_renumbers",
    "export_refused",
    "export_mass",
    "export_halves_mass_refuted",
    "export_systems_refuted",
    "export_metallicity_refuted",
    "export_missing_partial_file_refuted",
    "export_complete"
   ],
   "note": "Repeated exports follow by applying the theorem to the resulting target. Mass sums in exact arithmetic."
  },
  {
   "property": "C32",
   "status": "proved",
   "theorems": [
    "channels_exact",
    "channels_local",
    "event_words_complete",
    "sorted_file_written",
    "channels_unsorted_refuted",
    "channels_cut_refuted",
    "channels_unknown_class_refuted"
   ],
   "note": "Text of channels for the events the flow chart knows; channels_local covers arbitrary event strings without describing the text."
  },
  {
   "property": "C33",
   "status": "proved",
   "theorems": [
    "model_weights_exact",
    "model_weights_unsorted_refuted"
   ],
   "note": "The weight formula itself is a parameter (see C38)."
  },
  {
   "property": "C34",
   "status": "proved",
   "theorems": [
    "cosmic_model_accumulates",
    "cosmic_model_default_refuted",
    "cosmic_weights_exact",
    "cosmic_weights_cover",
    "cosmic_weights_missing_refuted"
   ],
   "note": "The row computed for one transient is a parameter."
  },
  {
   "property": "C35",
   "status": "proved",
   "theorems": [
    "bins_partition",
    "rate_channels_add_up",
    "rate_conserves",
    "rate_present_day_refuted"
   ],
   "note": "Every transient has a channel different from 'total'; as many rows of weights as transients (C34)."
  },
  {
   "property": "C36",
   "status": "proved",
   "theorems": [
    "metallicity_bins",
    "metallicity_single",
    "dlogz_read_back",
    "metallicity_single_refuted",
    "redshift_edges_exact",
    "redshift_centers_exact",
    "redshift_bins_fail_refuted",
    "redshift_time_counted",
    "redshift_edges_order_refuted",
    "redshift_centers_case_refuted"
   ],
   "note": "z_at_value is an arbitrary strictly decreasing function of positive times that raises for other times."
  },
  {
   "property": "C37",
   "status": "proved",
   "theorems": [
    "fractions_exact",
    "fractions_normalised",
    "fractions_above",
    "fractions_both_below_refuted",
    "fractions_refused",
    "limits_checked"
   ],
   "note": ""
  },
  {
   "property": "C38",
   "status": "proved",
   "theorems": [
    "C38_density",
    "C38_mean_mass",
    "C38_mean_mass_given",
    "C38_mean_mass_refuted",
    "C38_weights",
    "C38_nonneg",
    "C38_same",
    "C38_succeeds",
    "C38_errors",
    "C38_separation_refuted"
   ],
   "note": "Real arithmetic; quad and dblquad are improper Riemann integrals."
  },
  {
   "property": "C39",
   "status": "proved",
   "theorems": [
    "C39_salpeter",
    "C39_slope_one_refuted",
    "C39_kroupa2001",
    "C39_chabrier2003",
    "C39_flat_mass_ratio",
    "C39_uniform_eccentricity",
    "C39_thermal_eccentricity",
    "C39_zero_eccentricity",
    "C39_zero_eccentricity_refuted",
    "C39_power_law_mass_ratio",
    "C39_power_law_period",
    "C39_log_uniform",
    "C39_log_uniform_refuted",
    "C39_log_normal_separation",
    "C39_sana12",
    "C39_sana12_usual",
    "C39_sana12_shape_refuted"
   ],
   "note": "Real arithmetic; quad is the improper Riemann integral over the open interval, truncnorm its definition.  Sampling through inverse_sampler and rejection_sampler is C19."
  },
  {
   "property": "C40",
   "status": "proved",
   "theorems": [
    "C40_kroupa2001",
    "C40_unordered_breaks_refuted",
    "C40_chabrier2003"
   ],
   "note": "Real arithmetic."
  },
  {
   "property": "C41",
   "status": "proved",
   "theorems": [
    "oneline_binary",
    "oneline_star_1",
    "oneline_star_2",
    "oneline_scalar",
    "history_declared",
    "history_default",
    "oneline_default_refuted",
    "oneline_user_refuted"
   ],
   "note": "astype with None is taken as leaving the column as it is."
  },
  {
   "property": "C42",
   "status": "proved",
   "theorems": [
    "hooks_exact",
    "hooks_numbered",
    "hooks_refuted",
    "simprop_exact"
   ],
   "note": "ast.literal_eval, int and the imports are parameters."
  },
  {
   "property": "C43",
   "status": "proved",
   "theorems": [
    "warnings_outside",
    "warnings_default_first",
    "warnings_always_ignore",
    "warnings_context",
    "warnings_context_silent",
    "warnings_context_unfiltered",
    "warnings_leave_idle",
    "warnings_context_line_refuted",
    "warnings_nesting_refuted",
    "warnings_leave_error_refuted"
   ],
   "note": "Python's own display filter (what warnings.warn prints) and use_python_catch are not modelled."
  },
  {
   "property": "C44",
   "status": "proved",
   "theorems": [
    "ignore_reason"
   ],
   "note": ""
  },
  {
   "property": "C45",
   "status": "proved",
   "theorems": [
    "interp_exact",
    "interp_bounded",
    "interp_monotone",
    "interp_order",
    "interp_refused",
    "interp_repeated_refuted",
    "interp_repeated_first_refused"
   ],
   "note": ""
  },
  {
   "property": "C46",
   "status": "proved",
   "theorems": [
    "checksum_exact",
    "download_done",
    "download_refused",
    "download_retry",
    "download_set_done",
    "datasets_complete",
    "checksum_refuted",
    "default_dataset_refuted"
   ],
   "note": ""
  },
  {
   "property": "C47",
   "status": "proved",
   "theorems": [
    "restored_plain",
    "save_load",
    "save_exact",
    "load_exact",
    "save_sorted",
    "save_object_refuted",
    "save_failure_refuted",
    "attributes"
   ],
   "note": ""
  },
  {
   "property": "C48",
   "status": "proved",
   "theorems": [
    "C48_mass_ratio",
    "C48_mass_ratio_undefined",
    "C48_chirp_mass",
    "C48_chi_eff",
    "C48_chi_eff_arguments",
    "C48_arguments_kept_refuted",
    "C48_precession",
    "C48_precession_refuted"
   ],
   "note": "Real numbers and NaN instead of floats."
  },
  {
   "property": "C49",
   "status": "proved",
   "theorems": [
    "C49_construction",
    "C49_failures",
    "C49_every_keyword_honoured_refuted"
   ],
   "note": "Attributes the class sets for itself (kwargs, default_hooks, ...) are taken not to be named by the user; the keyword verbose is not modelled."
  },
  {
   "property": "C50",
   "status": "proved",
   "theorems": [
    "C50_constructed_sound",
    "C50_matchers_after_any_calls",
    "C50_load",
    "C50_load_steps",
    "C50_reload_keeps_metallicity",
    "C50_always_trained_refuted",
    "C50_options_survive_change_refuted",
    "C50_missing_step_skipped_refuted",
    "C50_metallicities"
   ],
   "note": "Opening a grid, training and calling a step's class are parameters.  Options do not name the two grids, and classes that take a matcher take a metallicity."
  },
  {
   "property": "C51",
   "status": "proved",
   "theorems": [
    "formation_burst",
    "formation_constant",
    "formation_custom",
    "formation_unknown",
    "formation_histogram_one",
    "formation_per_binary_refuted",
    "read_histogram_exact"
   ],
   "note": ""
  },
  {
   "property": "C52",
   "status": "proved",
   "theorems": [
    "transients_exact",
    "transients_refused",
    "transients_chunks_refuted"
   ],
   "note": "File in blocks as in C32."
  },
  {
   "property": "C53",
   "status": "proved",
   "theorems": [
    "observable_exact",
    "observable_per_history_refuted"
   ],
   "note": ""
  },
  {
   "property": "C54",
   "status": "proved",
   "theorems": [
    "efficiency_exact",
    "efficiency_adds_up",
    "efficiency_missing_channel_refuted",
    "efficiency_total_name_refuted"
   ],
   "note": ""
  },
  {
   "property": "C55",
   "status": "proved",
   "theorems": [
    "star_interpolator_exact",
    "star_flags_refused"
   ],
   "note": "PchipInterpolator is an arbitrary function of the column."
  },
  {
   "property": "C56",
   "status": "proved",
   "theorems": [
    "tabulated_cdf",
    "tabulated_total",
    "tabulated_empty",
    "table_row_used"
   ],
   "note": ""
  },
  {
   "property": "C57",
   "status": "proved",
   "theorems": [
    "sfh_choice",
    "limits_checked",
    "sfh_default_refuted"
   ],
   "note": "Reading the data files is taken to succeed."
  },
  {
   "property": "C58",
   "status": "proved",
   "theorems": [
    "population_options",
    "population_refused",
    "array_ranks",
    "array_rank_refuted"
   ],
   "note": "ast.literal_eval is a parameter."
  },
  {
   "property": "C59",
   "status": "proved",
   "theorems": [
    "C59_downsample",
    "C59_recovered",
    "C59_straight",
    "C59_unchanged",
    "C59_errors",
    "C59_integers_refuted"
   ],
   "note": "Real arithmetic, no NaN; the recursion limit is not modelled."
  },
  {
   "property": "C60",
   "status": "proved",
   "theorems": [
    "C60_scrub",
    "C60_good_unique",
    "C60_unchanged"
   ],
   "note": "Ages are rationals or NaN, model numbers integers; the type of the returned arrays is not modelled."
  },
  {
   "property": "C61",
   "status": "proved",
   "theorems": [
    "C61_starts",
    "C61_no_transfer",
    "C61_no_binary",
    "C61_fails",
    "C61_caller",
    "C61_arguments_refuted"
   ],
   "note": "Numbers are rationals or NaN."
  },
  {
   "property": "C62",
   "status": "proved",
   "theorems": [
    "C62_one",
    "C62_both",
    "C62_unchanged",
    "C62_last",
    "C62_last_row_dropped",
    "C62_last_row_refuted",
    "C62_ages_refuted"
   ],
   "note": "Numbers are rationals or NaN."
  },
  {
   "property": "C63",
   "status": "proved",
   "theorems": [
    "C63_scaled",
    "C63_fit_and_transform",
    "C63_refused",
    "C63_never_fitted",
    "C63_no_data",
    "C63_constant_refuted",
    "C63_failed_fit_refuted"
   ],
   "note": "Real arithmetic; infinities are merged with NaN."
  },
  {
   "property": "C64",
   "status": "proved",
   "theorems": [
    "C64_settled",
    "C64_timestep",
    "C64_none",
    "C64_exhaustive",
    "C64_last_refuted"
   ],
   "note": "Decoding and decompression are not modelled; white space is that of ASCII."
  },
  {
   "property": "C65",
   "status": "proved",
   "theorems": [
    "C65_failed",
    "C65_initial",
    "C65_contact",
    "C65_none",
    "C65_at_start",
    "C65_summary",
    "C65_unreadable",
    "C65_keeps_cases_refuted"
   ],
   "note": "Float subtraction, rounding and the burning threshold are parameters, as in C16."
  },
  {
   "property": "C66",
   "status": "proved",
   "theorems": [
    "C66_class",
    "C66_reverse_run",
    "C66_reverse_refuted",
    "C66_every_code_refuted",
    "C66_label_one",
    "C66_label_fixed",
    "C66_label_reverse",
    "C66_label_many",
    "C66_label_faithful_refuted",
    "C66_lists"
   ],
   "note": "The lists given to combine_TF12 are assumed equally long."
  },
  {
   "property": "C67",
   "status": "proved",
   "theorems": [
    "C67_detected",
    "C67_merged",
    "C67_apart_refuted",
    "C67_close_refuted",
    "C67_nearest",
    "C67_join",
    "C67_join_kept",
    "C67_class",
    "C67_join_twice",
    "C67_create",
    "C67_no_grid_point_refuted"
   ],
   "note": "Rational arithmetic; distances below 1e99 as a hypothesis (the code's start value)."
  },
  {
   "property": "C68",
   "status": "proved",
   "theorems": [
    "C68_binary",
    "C68_single",
    "C68_same_run",
    "C68_numbers_refuted",
    "C68_metallicity_refuted"
   ],
   "note": "Path components '.' and '..' are not normalised in the model."
  },
  {
   "property": "C69",
   "status": "proved",
   "theorems": [
    "C69_runs",
    "C69_joinable",
    "C69_config",
    "C69_format_refuted",
    "C69_substituted_refuted"
   ],
   "note": "HDF5 input and output are not modelled; the configuration of a grid has each key once (a JSON object)."
  },
  {
   "property": "C70",
   "status": "proved",
   "theorems": [
    "C70_runs",
    "C70_refused",
    "C70_metadata_refuted",
    "C70_ignored_refuted",
    "C70_points"
   ],
   "note": "Found directories are assumed to have absolute paths in C70_runs; glob and os.walk are not modelled."
  },
  {
   "property": "C71",
   "status": "proved",
   "theorems": [
    "C71_kind_unique",
    "C71_refused",
    "C71_merged",
    "C71_state",
    "C71_compact",
    "C71_defined",
    "C71_between",
    "C71_step",
    "C71_step_refused",
    "C71_exchange",
    "C71_one_left",
    "C71_burning_refuted",
    "C71_surface_refuted"
   ],
   "note": "Float operations are parameters; the warnings are not modelled."
  },
  {
   "property": "C72",
   "status": "proved",
   "theorems": [
    "C72_isolated",
    "C72_refused",
    "C72_single",
    "C72_end",
    "C72_merged",
    "C72_event_refuted"
   ],
   "note": "The detached step and update_star_states are parameters."
  },
  {
   "property": "C73",
   "status": "proved",
   "theorems": [
    "C73_co_core",
    "C73_he_core",
    "C73_no_ecsn",
    "C73_white_dwarf",
    "C73_unknown",
    "C73_nan",
    "C73_nan_refuted",
    "C73_match"
   ],
   "note": "Warnings are not modelled."
  },
  {
   "property": "C74",
   "status": "proved",
   "theorems": [
    "C74_rapid",
    "C74_delayed",
    "C74_ecsn",
    "C74_direct",
    "C74_bounds",
    "C74_delayed_monotone",
    "C74_limited",
    "C74_white_dwarf",
    "C74_eleven_refuted",
    "C74_direct_he_core_refuted",
    "C74_fraction_refuted",
    "C74_rapid_monotone_refuted",
    "C74_limited_fraction_refuted"
   ],
   "note": "Exact rational arithmetic instead of floats; lookup engines are a parameter."
  },
  {
   "property": "C75",
   "status": "proved",
   "theorems": [
    "C75_marchant",
    "C75_number",
    "C75_none",
    "C75_unknown",
    "C75_gap",
    "C75_disrupted",
    "C75_hendriks",
    "C75_loss_refuted",
    "C75_gap_refuted",
    "C75_number_refuted"
   ],
   "note": "Exact rational arithmetic; strings which float() accepts as PISN are not modelled."
  },
  {
   "property": "C76",
   "status": "proved",
   "theorems": [
    "C76_mass",
    "C76_bounds",
    "C76_monotone",
    "C76_border",
    "C76_inverse",
    "C76_inverse_refuted"
   ],
   "note": "Real numbers instead of floats."
  },
  {
   "property": "C77",
   "status": "proved",
   "theorems": [
    "C77_kick",
    "C77_no_dispersion",
    "C77_options",
    "C77_factor",
    "C77_sign",
    "C77_sign_refuted",
    "C77_deprecated"
   ],
   "note": "Random samplers are parameters; real arithmetic."
  },
  {
   "property": "C78",
   "status": "proved",
   "theorems": [
    "C78_outcome",
    "C78_profile",
    "C78_failed",
    "C78_wd_radius_refuted",
    "C78_engine_state_refuted"
   ],
   "note": "Lookup engines, the profile collapse and the radius relation are parameters."
  },
  {
   "property": "C79",
   "status": "proved",
   "theorems": [
    "C79_ignored",
    "C79_absent",
    "C79_used",
    "C79_pair_instability_refuted"
   ],
   "note": "That the stored dictionary itself is modified is left out."
  },
  {
   "property": "C80",
   "status": "proved",
   "theorems": [
    "C80_event",
    "C80_other_event",
    "C80_failed",
    "C80_remnant",
    "C80_companion",
    "C80_next_event",
    "C80_inspiral",
    "C80_no_kick",
    "C80_max_NS_mass_refuted",
    "C80_light_remnant_refuted",
    "C80_no_kick_refuted"
   ],
   "note": "collapse_star (C73 to C79), the state of normal stars and the inspiral time are parameters; histories are only read."
  },
  {
   "property": "C81",
   "status": "proved",
   "theorems": [
    "C81_anomaly",
    "C81_position",
    "C81_velocity"
   ],
   "note": "Real arithmetic; brentq is not modelled, its result is an argument."
  },
  {
   "property": "C82",
   "status": "proved",
   "theorems": [
    "C82_velocities",
    "C82_orbit",
    "C82_survival",
    "C82_through",
    "C82_negative_refuted"
   ],
   "note": "Real arithmetic; the rounding of sin(psi) to five digits is modelled exactly (the velocity before is the rounded one)."
  },
  {
   "property": "C83",
   "status": "proved",
   "theorems": [
    "C83_mass_loss",
    "C83_nothing",
    "C83_strong_kick",
    "C83_weak_kick",
    "C83_small_eccentricity_refuted"
   ],
   "note": "Real arithmetic."
  },
  {
   "property": "C84",
   "status": "proved",
   "theorems": [
    "C84_rotation",
    "C84_isometry",
    "C84_combined",
    "C84_range"
   ],
   "note": "Real arithmetic; axes of length three."
  },
  {
   "property": "C85",
   "status": "proved",
   "theorems": [
    "C85_distribution",
    "C85_kick",
    "C85_no_orbit",
    "C85_orbit",
    "C85_white_dwarf",
    "C85_velocity_refuted",
    "C85_flag_refuted"
   ],
   "note": "Draws, brentq and generate_kick are parameters; non-numeric masses and orbits of bound binaries are outside the model."
  },
  {
   "property": "C86",
   "status": "proved",
   "theorems": [
    "C86_choice",
    "C86_ignored",
    "C86_round_trip",
    "C86_unknown",
    "C86_valid",
    "C86_default_refuted",
    "C86_missing_refuted"
   ],
   "note": "Option values are texts, numbers, booleans, None or objects equal to none of these."
  },
  {
   "property": "C87",
   "status": "proved",
   "theorems": [
    "C87_he_depletion",
    "C87_core",
    "C87_core_stripped",
    "C87_patton",
    "C87_patton_engine",
    "C87_maltsev",
    "C87_maltsev_engine",
    "C87_masses",
    "C87_sukhbold",
    "C87_sukhbold_total",
    "C87_sukhbold_ns",
    "C87_sukhbold_linear",
    "C87_sukhbold_above",
    "C87_envelope_refuted",
    "C87_below_refuted",
    "C87_couch",
    "C87_verbose_refuted"
   ],
   "note": "Exact rational arithmetic; the regressions of Patton et al., np.log and the draw are parameters; of equally near rows the first is taken."
  },
  {
   "property": "C88",
   "status": "proved",
   "theorems": [
    "C88_energy",
    "C88_monotone",
    "C88_phases",
    "C88_wind",
    "C88_free_ejection",
    "C88_nothing_to_strip_refuted"
   ],
   "note": "Real numbers instead of floats; cores no heavier than the stars."
  },
  {
   "property": "C89",
   "status": "proved",
   "theorems": [
    "C89_errors",
    "C89_momentum",
    "C89_chain",
    "C89_pure"
   ],
   "note": "Real numbers; derivative of Coquelicot."
  },
  {
   "property": "C90",
   "status": "proved",
   "theorems": [
    "C90_event",
    "C90_at_once",
    "C90_core",
    "C90_radius",
    "C90_outcome",
    "C90_state",
    "C90_masses",
    "C90_options",
    "C90_refused_donors_refuted",
    "C90_compact_donor_refuted",
    "C90_companion_radius_refuted",
    "C90_second_envelope_refuted"
   ],
   "note": "Attributes hold None, NaN, numbers, texts or other objects; arithmetic on anything but numbers is not modelled."
  },
  {
   "property": "C91",
   "status": "proved",
   "theorems": [
    "C91_no_profile",
    "C91_double",
    "C91_single_refuted",
    "C91_gain_refuted"
   ],
   "note": "The integration over the profile is a parameter."
  },
  {
   "property": "C92",
   "status": "proved",
   "theorems": [
    "C92_order",
    "C92_decay",
    "C92_growth_refuted"
   ],
   "note": "Real numbers."
  },
  {
   "property": "C93",
   "status": "proved",
   "theorems": [
    "C93_peters",
    "C93_duration",
    "C93_runs",
    "C93_dense",
    "C93_outcome",
    "C93_eccentric",
    "C93_eccentric_contact_refuted",
    "C93_overlap_refuted",
    "C93_unbound_refuted",
    "C93_late_refuted"
   ],
   "note": "solve_ivp is exact; circular orbits are integrated with eccentricity 2^-1022 as in the code."
  },
  {
   "property": "C94",
   "status": "proved",
   "theorems": [
    "C94_consistent",
    "C94_bounds",
    "C94_scaling",
    "C94_errors"
   ],
   "note": "quad and solve_ivp are exact; real numbers."
  },
  {
   "property": "C95",
   "status": "proved",
   "theorems": [
    "C95_jeans",
    "C95_widens",
    "C95_spin",
    "C95_spin_refuted"
   ],
   "note": "Real numbers."
  },
  {
   "property": "C96",
   "status": "proved",
   "theorems": [
    "C96_momentum",
    "C96_energy",
    "C96_evolution",
    "C96_equilibrium",
    "C96_circular",
    "C96_symmetric",
    "C96_circular_signs",
    "C96_circularizes"
   ],
   "note": "Real numbers; masses and moments of inertia constant."
  },
  {
   "property": "C97",
   "status": "proved",
   "theorems": [
    "C97_RVJ83",
    "C97_G18",
    "C97_M15",
    "C97_CARB",
    "C97_spin_down",
    "C97_symmetric",
    "C97_CARB_primary_refuted",
    "C97_M15_twins_refuted",
    "C97_M15_jump_refuted"
   ],
   "note": "Real numbers."
  },
  {
   "property": "C98",
   "status": "proved",
   "theorems": [
    "C98_sum",
    "C98_mode",
    "C98_mode_refuted",
    "C98_clamped",
    "C98_overflow",
    "C98_track_end"
   ],
   "note": "Real numbers; rates that are not finite do not occur."
  },
  {
   "property": "C99",
   "status": "proved",
   "theorems": [
    "C99_refused",
    "C99_primary",
    "C99_mirror"
   ],
   "note": "Both star objects exist."
  }
 ]
}