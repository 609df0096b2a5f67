{
 "claims": [
  {
   "property": "C01",
   "status": "proved",
   "theorems": [
    "C01_limits",
    "C01_modulus_default",
    "C01_damping_default",
    "C01_defined",
    "C162_points",
    "C162_accuracy"
   ],
   "note": "values in limits for every strain and table"
  },
  {
   "property": "C02",
   "status": "proved",
   "theorems": [
    "C02_between",
    "C02_at_point",
    "C02_below",
    "C02_above",
    "C162_ends"
   ],
   "note": "the code replaces strains below 1e-9 by 1e-9, so tables reaching below 1e-9 are only covered at and above 1e-9"
  },
  {
   "property": "C03",
   "status": "proved",
   "theorems": [
    "C03_antitone",
    "C03_monotone",
    "C162_limits"
   ],
   "note": ""
  },
  {
   "property": "C04",
   "status": "partial",
   "theorems": [
    "C04_inside_partial",
    "C04_refuted"
   ],
   "note": "false as stated: C04_refuted; proved inside the range of the table"
  },
  {
   "property": "C05",
   "status": "proved",
   "theorems": [
    "C05_shift",
    "C05_small_strain",
    "C05_constant",
    "C05_adjusted_curve"
   ],
   "note": ""
  },
  {
   "property": "C06",
   "status": "proved",
   "theorems": [
    "C06_modulus",
    "C06_all_models"
   ],
   "note": "also proved for the two alternative modulus models"
  },
  {
   "property": "C07",
   "status": "proved",
   "theorems": [
    "C07_history",
    "C07_history_default",
    "C07_reset_forgets"
   ],
   "note": ""
  },
  {
   "property": "C08",
   "status": "partial",
   "theorems": [
    "C08_depths",
    "C08_refinement",
    "C08_refuted_equal_bottom",
    "C08_refuted_negative_insert",
    "C08_refuted_insert_past_end",
    "C12_equality",
    "C08_bottom"
   ],
   "note": "proved for admissible histories; false outside: three refutations (layer equal to a bottom layer of non-zero thickness, negative insert index, index past the end)"
  },
  {
   "property": "C09",
   "status": "proved",
   "theorems": [
    "C08_refinement",
    "C09_total_stress",
    "C09_history_stress"
   ],
   "note": ""
  },
  {
   "property": "C10",
   "status": "proved",
   "theorems": [
    "C09_history_stress",
    "C10_pore_pressure",
    "C10_effective"
   ],
   "note": ""
  },
  {
   "property": "C11",
   "status": "proved",
   "theorems": [
    "C11_lookup",
    "C11_interface",
    "C11_negative"
   ],
   "note": "negative depths are answered with the half-space"
  },
  {
   "property": "C12",
   "status": "partial",
   "theorems": [
    "C12_equality",
    "C12_index",
    "C12_layer",
    "C12_refuted"
   ],
   "note": "false when an earlier layer is equal by value: C12_refuted; proved otherwise, and the exact behaviour is C12_layer"
  },
  {
   "property": "C13",
   "status": "partial",
   "theorems": [
    "C13_copy",
    "C13_copy_velocity",
    "C13_refuted"
   ],
   "note": "false after strain-compatible properties were assigned: C13_refuted; proved otherwise, and the exact behaviour is C13_copy_velocity"
  },
  {
   "property": "C14",
   "status": "proved",
   "theorems": [
    "C14_refines",
    "C23_discretised_depths"
   ],
   "note": ""
  },
  {
   "property": "C15",
   "status": "partial",
   "theorems": [
    "C15_refuted",
    "C15_divided_partial"
   ],
   "note": "False for every profile with a linear and a nonlinear layer above the half-space (C15_refuted). Established when every layer above the half-space is divided (C15_divided_partial), for changes of these layers; the half-space itself always passes to the new profile."
  },
  {
   "property": "C16",
   "status": "proved",
   "theorems": [
    "C16_time_average",
    "C16_bounds"
   ],
   "note": ""
  },
  {
   "property": "C17",
   "status": "partial",
   "theorems": [
    "C17_deep",
    "C17_refuted"
   ],
   "note": "false for half-spaces shallower than 30 m: refuted for all of them; proved otherwise"
  },
  {
   "property": "C18",
   "status": "partial",
   "theorems": [
    "C18_meets_target_partial",
    "C18_refuted",
    "C18_deep_refuted",
    "C18_iff",
    "C18_dampings",
    "C18_errors",
    "C18_total",
    "C18_in_place",
    "C18_copy"
   ],
   "note": "false of the code if an interior or the deepest layer is excluded or the half-space has a thickness (C18_refuted, C18_deep_refuted); C18_iff gives the exact condition; proportionality and excluded layers proved"
  },
  {
   "property": "C19",
   "status": "proved",
   "theorems": [
    "C19_average",
    "C24_depth_average"
   ],
   "note": ""
  },
  {
   "property": "C20",
   "status": "partial",
   "theorems": [
    "C20_characterised",
    "C20_quarter_wavelength",
    "C20_uniform",
    "C20_refuted_zero_frequency",
    "C155_call"
   ],
   "note": "proved for positive frequencies (C20_characterised); the slowness average of the result is taken at the previous depth, and with a zero frequency the calculation always raises (C20_refuted_zero_frequency)"
  },
  {
   "property": "C21",
   "status": "proved",
   "theorems": [
    "C21_interface",
    "C21_wave_equation",
    "C21_free_surface",
    "C21_refuted_below_threshold"
   ],
   "note": "for frequencies the code treats as non-zero (above 1e-8 rad/s); C21_refuted_below_threshold shows why the bound is needed"
  },
  {
   "property": "C22",
   "status": "proved",
   "theorems": [
    "C22_self",
    "C22_compose",
    "C22_physical",
    "C22_outcrop",
    "C22_surface",
    "C22_zero_frequency"
   ],
   "note": ""
  },
  {
   "property": "C23",
   "status": "proved",
   "theorems": [
    "C23_split",
    "C23_refinement",
    "C23_discretised",
    "C23_depths",
    "C23_discretised_depths"
   ],
   "note": "for the bottom layer the split needs a frequency above the threshold"
  },
  {
   "property": "C24",
   "status": "partial",
   "theorems": [
    "C24_waves",
    "C24_location",
    "C24_strain",
    "C24_refuted_threshold",
    "C24_refuted_zero_velocity",
    "C24_no_numba",
    "C24_depth_average",
    "C24_refuted_depth_average"
   ],
   "note": "false as stated: the kernels differ at |w| = 1e-8 and for zero velocities, and without Numba the module does not import; equality proved otherwise; the depth averages agree except at depth zero"
  },
  {
   "property": "C25",
   "status": "proved",
   "theorems": [
    "C25_nonzero",
    "C25_damped_within"
   ],
   "note": "for frequencies above 1e-8 rad/s, the code treats smaller ones as zero"
  },
  {
   "property": "C26",
   "status": "proved",
   "theorems": [
    "C26_stops",
    "C26_only_limit_error",
    "C48_odd_run"
   ],
   "note": ""
  },
  {
   "property": "C27",
   "status": "partial",
   "theorems": [
    "C27_one_sided_partial",
    "C27_refuted",
    "C27_early_stop",
    "C27_bedrock_blocks"
   ],
   "note": "false as stated: C27_refuted (relative_error has no absolute value); proved: the one-sided bound, and C27_early_stop and C27_bedrock_blocks describe both failure modes"
  },
  {
   "property": "C28",
   "status": "partial",
   "theorems": [
    "C28_enforced_partial",
    "C28_limited_flag",
    "C28_error",
    "C28_refuted_half_space",
    "C28_half_space_strain"
   ],
   "note": "the error condition is proved in full; the limit holds for every layer after every pass except the half-space, which is never limited (C28_refuted_half_space), and the initial estimate from the peak velocity is not limited either"
  },
  {
   "property": "C29",
   "status": "proved",
   "theorems": [
    "C29_linear",
    "C29_linear_physical",
    "C161_run",
    "C161_physical",
    "C161_scaled"
   ],
   "note": ""
  },
  {
   "property": "C30",
   "status": "proved",
   "theorems": [
    "C30_derivative",
    "C30_zero",
    "C30_within_only",
    "C30_stress",
    "C30_surface",
    "C30_rows",
    "C30_run"
   ],
   "note": ""
  },
  {
   "property": "C31",
   "status": "proved",
   "theorems": [
    "C31_layering"
   ],
   "note": "C31_layering, for parameters with c1 > 0, c2 > -1, c3 > 0, which include the default"
  },
  {
   "property": "C32",
   "status": "partial",
   "theorems": [
    "C32_profile_partial",
    "C32_refuted"
   ],
   "note": "everything except the minimum damping of the half-space, which is replaced by that of its soil type (C32_refuted)"
  },
  {
   "property": "C33",
   "status": "proved",
   "theorems": [
    "C33_velocities"
   ],
   "note": "C33_velocities, for unstrained layers; a strained layer would be copied with its strain-compatible velocity"
  },
  {
   "property": "C34",
   "status": "partial",
   "theorems": [
    "C34_shape_partial",
    "C34_weak",
    "C34_two_layers",
    "C34_refuted",
    "C34_refuted_toro"
   ],
   "note": "shape proved; semi-definite when no correlation exceeds 1/2 and for two layers; false for the Toro model with three or more layers (C34_refuted_toro)"
  },
  {
   "property": "C35",
   "status": "proved",
   "theorems": [
    "C35_correlations",
    "C35_values",
    "C35_parameters"
   ],
   "note": "C35_correlations, C35_values; C35_parameters for the whole published table"
  },
  {
   "property": "C36",
   "status": "proved",
   "theorems": [
    "C36_limits",
    "C36_outside"
   ],
   "note": "C36_limits, for seeds with modulus reduction in [0, 1] and non-negative damping; the Darendeli model gives nan outside (C36_outside)"
  },
  {
   "property": "C37",
   "status": "partial",
   "theorems": [
    "C37_shared_partial",
    "C37_refuted"
   ],
   "note": "sharing proved (C37_shared_partial); the iteration yields a shared soil type once per layer (C37_refuted)"
  },
  {
   "property": "C38",
   "status": "partial",
   "theorems": [
    "C38_count",
    "C38_cycle",
    "C38_index",
    "C38_deterministic",
    "C38_refuted_direct_call",
    "C38_constructor",
    "C38_modes"
   ],
   "note": "proved for iter_varied_profiles; a direct call with an index past the end raises IndexError instead of cycling (C38_refuted_direct_call); construction and modes: C38_constructor, C38_modes"
  },
  {
   "property": "C39",
   "status": "partial",
   "theorems": [
    "C39_depth_partial",
    "C39_refuted"
   ],
   "note": "C39_depth_partial; at an interface a layer of zero thickness remains (C39_refuted)"
  },
  {
   "property": "C40",
   "status": "partial",
   "theorems": [
    "C40_refuted"
   ],
   "note": "false of the code: the half-space of the input is moved (C40_refuted)"
  },
  {
   "property": "C41",
   "status": "proved",
   "theorems": [
    "C41_iteration",
    "C41_sound_or_exception",
    "C41_duplicates"
   ],
   "note": "hypothesis: distinct node names, hashable values (no lists) and evaluable conditions (node exists; float references meet numbers); the other case is C41_sound_or_exception; nodes sharing a name: C41_duplicates"
  },
  {
   "property": "C42",
   "status": "partial",
   "theorems": [
    "C42_branch_weight",
    "C42_unconditional",
    "C42_conditional",
    "C42_refuted"
   ],
   "note": "the last clause (total = sum over valid branches) is false when two valid alternatives of a node share a value: refuted; the other clauses are proved, and the conditional case is proved for trees complete after every earlier choice"
  },
  {
   "property": "C43",
   "status": "partial",
   "theorems": [
    "C43_miller_rice",
    "C43_unsupported",
    "C43_exact_sum"
   ],
   "note": "weights add up to 1 only within the table rounding of 1e-6; exact for all sizes but 3 and 9 (proved)"
  },
  {
   "property": "C44",
   "status": "proved",
   "theorems": [
    "C41_sound_or_exception",
    "C44_validity",
    "C44_unconditional",
    "C159_one"
   ],
   "note": ""
  },
  {
   "property": "C45",
   "status": "partial",
   "theorems": [
    "C45_accumulates",
    "C45_accumulates_fixed",
    "C45_refuted_empty"
   ],
   "note": "proved when every result has at least one reference (and without condition for fixed references); C45_refuted_empty: the references of an empty first result are forgotten. Integer-dtype arrays (np.pad with NaN) are not modelled"
  },
  {
   "property": "C46",
   "status": "partial",
   "theorems": [
    "C45_accumulates",
    "C45_accumulates_fixed",
    "C46_fails_iff",
    "C46_names_count_partial",
    "C46_default_name",
    "C46_refuted",
    "C46_refuted_duplicate",
    "C46_refuted_half_space",
    "C46_collection",
    "C46_collection_failure"
   ],
   "note": "false as stated after a call that raises: C46_refuted, C46_refuted_duplicate, C46_refuted_half_space; the exact count and the default name are proved for all histories, and C45_accumulates gives the names for successful ones"
  },
  {
   "property": "C47",
   "status": "proved",
   "theorems": [
    "C47_reset",
    "C47_reset_forgets"
   ],
   "note": ""
  },
  {
   "property": "C48",
   "status": "partial",
   "theorems": [
    "C48_defined",
    "C48_counts_partial",
    "C48_step",
    "C48_refuted_odd",
    "C48_refuted_short",
    "C48_odd_run"
   ],
   "note": "proved for the frequency step, the default length and even FFT lengths; false for odd explicit lengths and for records of fewer than two samples (C48_counts_partial gives the exact condition, C48_refuted_odd and C48_refuted_short the failures)"
  },
  {
   "property": "C49",
   "status": "proved",
   "theorems": [
    "C49_zero",
    "C49_magnitude",
    "C49_oscillator",
    "C49_spectrum"
   ],
   "note": ""
  },
  {
   "property": "C50",
   "status": "partial",
   "theorems": [
    "C50_level_partial",
    "C50_refuted",
    "C50_defined",
    "C50_reads",
    "C50_stress_needed"
   ],
   "note": "no exception and the highest level for all groups and models; false for the modulus reduction of clayey soils, whose documented order leaves out the void ratio (C50_refuted)"
  },
  {
   "property": "C51",
   "status": "partial",
   "theorems": [
    "C51_refuted",
    "C51_twice",
    "C51_no_percent_partial"
   ],
   "note": "false of the code: percentages are converted twice (C51_refuted, C51_twice); true without percentages (C51_no_percent_partial)"
  },
  {
   "property": "C52",
   "status": "proved",
   "theorems": [
    "C52_shape",
    "C52_running_maximum",
    "C52_bound_needed",
    "C52_darendeli",
    "C52_menq",
    "C52_rollins"
   ],
   "note": "the bound 3/2 on the curvature is needed (C52_bound_needed)"
  },
  {
   "property": "C53",
   "status": "proved",
   "theorems": [
    "C53_two_param",
    "C53_default_coefficients",
    "C53_default_limit",
    "C53_wang_mod_reduc",
    "C53_wang_damping",
    "C53_soil"
   ],
   "note": "coefficients in range means a positive exponent b; the default coefficients leave it at 63 atmospheres (C53_default_limit)"
  },
  {
   "property": "C54",
   "status": "proved",
   "theorems": [
    "C54_read_back",
    "C54_short",
    "C54_integers"
   ],
   "note": ""
  },
  {
   "property": "C55",
   "status": "partial",
   "theorems": [
    "C55_refuted",
    "C55_last_ignored",
    "C55_zero_dropped",
    "C55_option_lines"
   ],
   "note": "false of the code: the last block is never saved (C55_refuted)"
  },
  {
   "property": "C56",
   "status": "partial",
   "theorems": [
    "C56_grouping",
    "C56_grouping_unique",
    "C56_merged",
    "C56_depths",
    "C56_keeps_partial",
    "C56_refuted",
    "C56_balance",
    "C56_empty"
   ],
   "note": "proved that groups, depths, velocities and travel times are as stated; refuted when the half-space is merged with rows above: the thickness and travel time of that group are lost, and only then"
  },
  {
   "property": "C57",
   "status": "proved",
   "theorems": [
    "C57_value",
    "C57_profile",
    "C57_differs"
   ],
   "note": "the half-space has no thickness; the difference of the unit weights of water is made explicit"
  },
  {
   "property": "C58",
   "status": "proved",
   "theorems": [
    "C58_region",
    "C58_depths",
    "C58_surface",
    "C58_increases"
   ],
   "note": ""
  },
  {
   "property": "C59",
   "status": "partial",
   "theorems": [
    "C59_refuted",
    "C59_renamed_partial",
    "C59_depths"
   ],
   "note": "false of the code: KeyError (C59_refuted); holds with the column renamed (C59_renamed_partial)"
  },
  {
   "property": "C60",
   "status": "proved",
   "theorems": [
    "C60_classes",
    "C60_known"
   ],
   "note": "C60_classes, C60_known"
  },
  {
   "property": "C61",
   "status": "partial",
   "theorems": [
    "C61_tables_partial",
    "C61_names_partial",
    "C61_modulus_refuted",
    "C61_damping_refuted",
    "C61_soil_refuted",
    "C61_lookup",
    "C61_known",
    "C61_pair",
    "C61_missing",
    "C61_values",
    "C61_monotone_partial"
   ],
   "note": "proved except for the listed models: one modulus reduction table rises, seven damping tables fall, seven models have one curve only"
  },
  {
   "property": "C62",
   "status": "partial",
   "theorems": [
    "C62_monotone",
    "C62_last",
    "C62_length",
    "C62_refuted_times"
   ],
   "note": "monotonicity and the last value are proved; the times are one step early (C62_refuted_times)"
  },
  {
   "property": "C63",
   "status": "proved",
   "theorems": [
    "C63_inside",
    "C63_quantile",
    "C63_median",
    "C63_quantile_unique",
    "C63_quantile_exists",
    "C63_median_soil",
    "C63_median_spid"
   ],
   "note": "for the inverse distribution function characterised by is_ppf, shown to determine exactly one function; the SPID median differs from the seed by at most machine epsilon (C63_median_spid)"
  },
  {
   "property": "C64",
   "status": "proved",
   "theorems": [
    "C64_first_valid"
   ],
   "note": "C64_first_valid"
  },
  {
   "property": "C65",
   "status": "partial",
   "theorems": [
    "C65_refuted",
    "C65_damping_refuted"
   ],
   "note": "false: the layer silently stays linear (refuted for every mis-sized curve)"
  },
  {
   "property": "C66",
   "status": "proved",
   "theorems": [
    "C66_max_strain",
    "C66_top",
    "C66_csr",
    "C66_csr_content",
    "C66_pairs",
    "C66_accel"
   ],
   "note": "values are floats; the cyclic stress ratio and peak acceleration outputs when they return"
  },
  {
   "property": "C67",
   "status": "proved",
   "theorems": [
    "C48_refuted_short",
    "C67_round_trip",
    "C67_peak",
    "C67_arias",
    "C67_times"
   ],
   "note": "for the stated even lengths; C48_refuted_short shows the failure for length 1"
  },
  {
   "property": "C68",
   "status": "partial",
   "theorems": [
    "C68_fit_partial",
    "C68_iff",
    "C68_refuted"
   ],
   "note": "false: the reported attenuation is the last evaluated one (C68_refuted); C68_fit_partial and C68_iff say exactly what is reported"
  },
  {
   "property": "C69",
   "status": "partial",
   "theorems": [
    "C69_q",
    "C69_inverse_q",
    "C69_zero",
    "C69_layers_partial",
    "C69_refuted"
   ],
   "note": "numbered layers as in the format; a colliding layer number is overwritten (C69_refuted) and entries up to 1e-8 count as zero"
  },
  {
   "property": "C70",
   "status": "proved",
   "theorems": [
    "C70_formula",
    "C70_rayleigh_scales",
    "C70_time_average_scales"
   ],
   "note": ""
  },
  {
   "property": "C71",
   "status": "proved",
   "theorems": [
    "C71_ratio",
    "C71_compatible",
    "C71_stresses",
    "C71_reduction"
   ],
   "note": ""
  },
  {
   "property": "C72",
   "status": "proved",
   "theorems": [
    "C72_iterates",
    "C72_iterates_fixed"
   ],
   "note": "for outputs that hold results, which C45_accumulates establishes for successful histories; after failures see C46_refuted"
  },
  {
   "property": "C73",
   "status": "partial",
   "theorems": [
    "C73_read_back_partial",
    "C73_refuted_strain",
    "C149_read"
   ],
   "note": "proved for the damping, modulus and velocity profiles with positive values; false for the maximum-strain profile (C73_refuted_strain), and the cyclic stress ratio is stored the same way"
  },
  {
   "property": "C74",
   "status": "proved",
   "theorems": [
    "C74_statistics",
    "C74_missing",
    "C74_table"
   ],
   "note": "C74_table: with a single result the statistics raise"
  },
  {
   "property": "C75",
   "status": "proved",
   "theorems": [
    "C75_spectrum"
   ],
   "note": ""
  },
  {
   "property": "C76",
   "status": "partial",
   "theorems": [
    "C76_defined_partial",
    "C76_refuted",
    "C76_refuted_amp",
    "C76_refuted_half_space"
   ],
   "note": "false below a frequency ratio (C76_refuted) and for a half-space; proved from 10^-1.301 upwards"
  },
  {
   "property": "C77",
   "status": "proved",
   "theorems": [
    "C77_iteration",
    "C77_frame"
   ],
   "note": "C77_iteration for completed iterations, C77_frame for all"
  },
  {
   "property": "C78",
   "status": "partial",
   "theorems": [
    "C37_shared_partial",
    "C78_refuted"
   ],
   "note": "false of the code: the damping is the minimum damping of the original layer (C78_refuted)"
  },
  {
   "property": "C79",
   "status": "partial",
   "theorems": [
    "C79_unit_variance",
    "C79_range",
    "C79_refuted"
   ],
   "note": "unit variance proved; the range is scale times the limit, which exceeds the limit (C79_refuted)"
  },
  {
   "property": "C80",
   "status": "partial",
   "theorems": [
    "C80_refuted",
    "C80_with_depths"
   ],
   "note": "holds when depths are given (C80_with_depths); otherwise the argument is ignored (C80_refuted)"
  },
  {
   "property": "C81",
   "status": "partial",
   "theorems": [
    "C35_values",
    "C81_refuted",
    "C81_iff"
   ],
   "note": "false of the code: half the distance between the first and the third layer is used (C81_refuted, C81_iff)"
  },
  {
   "property": "C82",
   "status": "proved",
   "theorems": [
    "C82_named",
    "C82_unnamed"
   ],
   "note": "C82_named, C82_unnamed"
  },
  {
   "property": "C83",
   "status": "partial",
   "theorems": [
    "C83_refuted"
   ],
   "note": "false of the code: KeyError (C83_refuted)"
  },
  {
   "property": "C84",
   "status": "partial",
   "theorems": [
    "C53_wang_damping",
    "C84_minimum_partial",
    "C84_shear_mod_partial",
    "C84_refuted",
    "C84_clay_refuted"
   ],
   "note": "holds under extra conditions; false for wet clean sand without void ratio and for clays with a high fines content (C84_refuted, C84_clay_refuted)"
  },
  {
   "property": "C85",
   "status": "partial",
   "theorems": [
    "C85_refuted"
   ],
   "note": "false of the code below about 0.03 Hz (C85_refuted gives the exact condition)"
  },
  {
   "property": "C86",
   "status": "proved",
   "theorems": [
    "C86_shape",
    "C86_soil"
   ],
   "note": ""
  },
  {
   "property": "C87",
   "status": "proved",
   "theorems": [
    "C87_constructor"
   ],
   "note": ""
  },
  {
   "property": "C88",
   "status": "proved",
   "theorems": [
    "C88_loop_area"
   ],
   "note": ""
  },
  {
   "property": "C89",
   "status": "partial",
   "theorems": [
    "C89_refuted"
   ],
   "note": "false of the code: substrings (C89_refuted)"
  },
  {
   "property": "C90",
   "status": "partial",
   "theorems": [
    "C90_uniform",
    "C90_refuted",
    "C90_frequencies"
   ],
   "note": "false of the code for every positive damping (C90_refuted); C90_uniform gives the value"
  },
  {
   "property": "C91",
   "status": "partial",
   "theorems": [
    "C91_refuted"
   ],
   "note": "false of the code (C91_refuted)"
  },
  {
   "property": "C92",
   "status": "proved",
   "theorems": [
    "C92_values",
    "C92_short",
    "C126_at2"
   ],
   "note": "number texts as in the model of float: no underscores, inf or nan"
  },
  {
   "property": "C93",
   "status": "proved",
   "theorems": [
    "C93_values",
    "C93_other",
    "C126_fields"
   ],
   "note": "number texts as in the model of float; has_station stands for the pattern of the station line"
  },
  {
   "property": "C94",
   "status": "partial",
   "theorems": [
    "C94_values_partial",
    "C94_refuted"
   ],
   "note": "false for a whole half-space velocity (C94_refuted), otherwise proved"
  },
  {
   "property": "C95",
   "status": "partial",
   "theorems": [
    "C95_refuted"
   ],
   "note": "false of the code: only options 1 to 3 can be read (C95_refuted)"
  },
  {
   "property": "C96",
   "status": "partial",
   "theorems": [
    "C96_refuted",
    "C96_conversion"
   ],
   "note": "false of the code (C96_refuted); C96_conversion: with recognised units the conversion would raise AttributeError"
  },
  {
   "property": "C97",
   "status": "proved",
   "theorems": [
    "C97_curves",
    "C97_lookup",
    "C97_unknown"
   ],
   "note": "as records of name, strains and values; the curve objects are those of C01"
  },
  {
   "property": "C98",
   "status": "partial",
   "theorems": [
    "C98_refuted"
   ],
   "note": "refuted: both documented names raise ValueError"
  },
  {
   "property": "C99",
   "status": "proved",
   "theorems": [
    "C99_loads",
    "C99_columns"
   ],
   "note": "after the JSON file has been decoded"
  },
  {
   "property": "C100",
   "status": "partial",
   "theorems": [
    "C100_refuted"
   ],
   "note": "refuted: the loader multiplies by 9.81, the soil type divides by 9.80665"
  },
  {
   "property": "C101",
   "status": "proved",
   "theorems": [
    "C101_shape",
    "C101_defaults",
    "C101_empty"
   ],
   "note": ""
  },
  {
   "property": "C102",
   "status": "proved",
   "theorems": [
    "C102_ratio",
    "C102_weight",
    "C102_density"
   ],
   "note": ""
  },
  {
   "property": "C103",
   "status": "partial",
   "theorems": [
    "C103_refuted"
   ],
   "note": "refuted: the default strains end at 10**-1.5"
  },
  {
   "property": "C104",
   "status": "proved",
   "theorems": [
    "C104_bounds",
    "C104_ko",
    "C104_ko_values",
    "C104_ko_unread",
    "C104_zr15",
    "C104_ka02",
    "C104_area",
    "C104_ka02_full"
   ],
   "note": "Bounds for every method; the ka02 clause holds under non-negative fitted coefficients, and the theorem also says what happens for a negative exponent. The smoother and the least-squares solver are arguments of the model."
  },
  {
   "property": "C105",
   "status": "proved",
   "theorems": [
    "C105_stops",
    "C105_limit",
    "C105_error"
   ],
   "note": "Numbers that are not finite end the modelled run; such runs are not described further."
  },
  {
   "property": "C106",
   "status": "proved",
   "theorems": [
    "C106_compatible",
    "C106_waves",
    "C106_change"
   ],
   "note": "The change in the last pass is signed in the code, so only a fall is bounded; the theorem states it so."
  },
  {
   "property": "C107",
   "status": "partial",
   "theorems": [
    "C107_refuted",
    "C107_other"
   ],
   "note": "False of the code: every other name behaves as zr15 (C107_other); C107_refuted gives a run that converges under an undocumented name."
  },
  {
   "property": "C108",
   "status": "partial",
   "theorems": [
    "C108_refuted",
    "C108_estimate",
    "C108_passes"
   ],
   "note": "False of the code: the estimate depends on neither max_iterations nor tolerance and makes 1 to 15 passes; C108_refuted gives a run with max_iterations = 0. The passes of the calculator itself are bounded (C105_stops)."
  },
  {
   "property": "C109",
   "status": "proved",
   "theorems": [
    "C109_linear",
    "C163_run"
   ],
   "note": ""
  },
  {
   "property": "C110",
   "status": "partial",
   "theorems": [
    "C110_refuted",
    "C110_arrays",
    "C110_mixed",
    "C110_numbers_partial",
    "C110_always"
   ],
   "note": "False of the code: dampings are arrays for soil types with a damping curve, the stored values are two-dimensional, and a second run raises AssertionError; constant and tabulated damping together raise ValueError. C110_numbers_partial proves the property when every damping is constant."
  },
  {
   "property": "C111",
   "status": "proved",
   "theorems": [
    "C111_input",
    "C111_defined",
    "C111_runs",
    "C111_eql",
    "C111_self"
   ],
   "note": "C111_input and C111_self for sound layers with the waves of any calculator, C111_eql and C111_runs for whole equivalent-linear runs, C111_defined for the other outputs. The lowest non-zero angular frequency must exceed the threshold 1e-8 of the kernels (n dt <= 6e8 s)."
  },
  {
   "property": "C112",
   "status": "proved",
   "theorems": [
    "C112_strain",
    "C112_csr",
    "C112_effective",
    "C112_stress"
   ],
   "note": "C112_strain, C112_stress and C112_csr; the effective stress at mid-height must be positive, otherwise the entry is missing (C116)."
  },
  {
   "property": "C113",
   "status": "proved",
   "theorems": [
    "C113_laws",
    "C113_scaled",
    "C113_positive"
   ],
   "note": "C113_laws for locations with non-zero spectra, C113_scaled, and C113_positive, which gives a sufficient condition for non-zero spectra."
  },
  {
   "property": "C114",
   "status": "proved",
   "theorems": [
    "C114_transfer",
    "C114_fourier"
   ],
   "note": "C114_transfer and C114_fourier."
  },
  {
   "property": "C115",
   "status": "proved",
   "theorems": [
    "C115_accel",
    "C115_strain",
    "C115_stress",
    "C115_response",
    "C115_fourier"
   ],
   "note": "C115_accel, C115_strain and C115_stress for arbitrary combinations; C115_response and C115_fourier for scaling."
  },
  {
   "property": "C116",
   "status": "partial",
   "theorems": [
    "C116_refuted",
    "C116_surface",
    "C116_below",
    "C116_inside_partial"
   ],
   "note": "False of the code: at depth zero the series is divided by zero, and inside the half-space, whose thickness is zero, the stress assertion fails (C116_refuted, C116_surface, C116_below). C116_inside_partial proves it where the effective stress is defined and not zero."
  },
  {
   "property": "C117",
   "status": "proved",
   "theorems": [
    "C117_peaks"
   ],
   "note": "C117_peaks."
  },
  {
   "property": "C118",
   "status": "proved",
   "theorems": [
    "C118_keeps"
   ],
   "note": "C118_keeps."
  },
  {
   "property": "C119",
   "status": "partial",
   "theorems": [
    "C119_refuted",
    "C119_signs",
    "C119_median",
    "C119_factor"
   ],
   "note": "False of the code: the two deviations have the same sign for every correlation above minus the square root of one half, including the default of -0.5 (C119_refuted, C119_signs). C119_factor and C119_median give the exact pair."
  },
  {
   "property": "C120",
   "status": "partial",
   "theorems": [
    "C120_first",
    "C120_order_partial",
    "C120_refuted"
   ],
   "note": "C120_first and the modulus part of C120_order_partial hold in full; the damping follows the sign of the factor correl + sqrt(1 - correl^2) instead of the sign of the correlation, so with the default correlation the order of the damping is the reverse of the one claimed (C120_refuted)."
  },
  {
   "property": "C121",
   "status": "proved",
   "theorems": [
    "C121_darendeli_mod",
    "C121_darendeli_damp",
    "C121_spid_mod",
    "C121_spid_damp"
   ],
   "note": "C121_darendeli_mod, C121_darendeli_damp, C121_spid_mod and C121_spid_damp. In the SPID model the odds of the seed are m / (1 - m + eps) with the machine epsilon of the code."
  },
  {
   "property": "C122",
   "status": "proved",
   "theorems": [
    "C122_bound",
    "C122_stiffening"
   ],
   "note": "C122_bound and C122_stiffening, for the Python kernel (C24 relates the Numba kernel to it) and equal damping in all layers."
  },
  {
   "property": "C123",
   "status": "proved",
   "theorems": [
    "C123_closed_form",
    "C123_undamped",
    "C123_resonance"
   ],
   "note": "C123_closed_form, C123_undamped and C123_resonance."
  },
  {
   "property": "C124",
   "status": "proved",
   "theorems": [
    "C124_linear",
    "C124_eql",
    "C124_again",
    "C124_fdm",
    "C124_fdm_again",
    "C124_fdm_after_eql"
   ],
   "note": "C124_linear, C124_eql, C124_again, C124_fdm, C124_fdm_again and C124_fdm_after_eql. Runs that end with an exception are not histories here: the state of the layers after an exception is not modelled; C124_eql and C124_fdm cover any values in the layers as long as the descriptions are those of the profile."
  },
  {
   "property": "C125",
   "status": "proved",
   "theorems": [
    "C125_continues"
   ],
   "note": "C125_continues, for the equivalent-linear calculator."
  },
  {
   "property": "C126",
   "status": "proved",
   "theorems": [
    "C126_float",
    "C126_int",
    "C126_int_rejects",
    "C126_float_error",
    "C126_int_error",
    "C126_at2",
    "C126_fields"
   ],
   "note": "The readers of the model take ASCII decimal numerals; the infinities, nan, underscores and other digits that float() and int() also take are not modelled. Values are exact."
  },
  {
   "property": "C127",
   "status": "proved",
   "theorems": [
    "C127_order",
    "C127_close"
   ],
   "note": "C127_order and C127_close, for one-dimensional tables."
  },
  {
   "property": "C128",
   "status": "proved",
   "theorems": [
    "C128_darendeli_modulus",
    "C128_darendeli_minimum",
    "C128_darendeli_damping",
    "C128_menq_modulus",
    "C128_menq_minimum",
    "C128_menq_damping",
    "C128_rollins_modulus",
    "C128_rollins_damping"
   ],
   "note": "In exact arithmetic. For Menq the effect of the stress on the modulus reduction is not stated: the curvature changes with it, so the curves cross."
  },
  {
   "property": "C129",
   "status": "proved",
   "theorems": [
    "C129_profile",
    "C129_water_table",
    "C129_unknown",
    "C129_file"
   ],
   "note": "One line per layer, whose last field is not empty: C91 covers lines that end early. The layers are records; building the Profile objects from them is that of the other properties. C129_water_table: layer number 0 means the last layer."
  },
  {
   "property": "C130",
   "status": "partial",
   "theorems": [
    "C130_read",
    "C130_plain",
    "C130_tuples",
    "C130_lists",
    "C130_refuted"
   ],
   "note": "C130_read and C130_plain prove it for trees over strings and numbers; false for tuple values, which come back as lists and cannot be hashed: C130_tuples, C130_lists, C130_refuted"
  },
  {
   "property": "C131",
   "status": "proved",
   "theorems": [
    "C131_problem"
   ],
   "note": "for a JSON list of items whose objects have distinct keys (json.load guarantees it); the types of names, weights and conditions are not checked by the code"
  },
  {
   "property": "C132",
   "status": "partial",
   "theorems": [
    "C132_first",
    "C132_none",
    "C132_error",
    "C132_branch",
    "C132_name",
    "C132_no_name",
    "C132_refuted"
   ],
   "note": "exact description by C132_first, C132_none, C132_error; branch values are found again (C132_branch) up to the tolerance for floats; C132_refuted: a float may return an earlier alternative that is merely close"
  },
  {
   "property": "C133",
   "status": "proved",
   "theorems": [
    "C133_scaled"
   ],
   "note": "for every record, factor, transfer function and FFT length"
  },
  {
   "property": "C134",
   "status": "proved",
   "theorems": [
    "C134_series",
    "C134_measures"
   ],
   "note": "for even FFT lengths; odd lengths are C48"
  },
  {
   "property": "C135",
   "status": "partial",
   "theorems": [
    "C135_velocity_partial",
    "C135_zero",
    "C135_refuted"
   ],
   "note": "C135_velocity_partial: the component at the highest frequency is removed as well; C135_zero characterises zero; C135_refuted: the record 1, -1 has zero peak velocity"
  },
  {
   "property": "C136",
   "status": "proved",
   "theorems": [
    "C136_parseval",
    "C136_arias",
    "C136_cav"
   ],
   "note": "for even FFT lengths"
  },
  {
   "property": "C137",
   "status": "proved",
   "theorems": [
    "C137_kept"
   ],
   "note": ""
  },
  {
   "property": "C138",
   "status": "partial",
   "theorems": [
    "C138_agrees_partial",
    "C138_record",
    "C138_refuted"
   ],
   "note": "C138_agrees_partial while nothing is written; C138_record and C137_kept describe histories with writes; C138_refuted: one write separates accels from everything computed, since np.asarray shares the array"
  },
  {
   "property": "C139",
   "status": "proved",
   "theorems": [
    "C139_exists",
    "C139_unique",
    "C139_tf"
   ],
   "note": "Existence and uniqueness up to a factor among all twice differentiable fields on each layer; transfer functions follow."
  },
  {
   "property": "C140",
   "status": "proved",
   "theorems": [
    "C140_similar"
   ],
   "note": "For the Python kernel at one frequency; both frequencies have to be above the 1e-8 threshold."
  },
  {
   "property": "C141",
   "status": "proved",
   "theorems": [
    "C141_bounds",
    "C141_stiffening"
   ],
   "note": "Standard method; consequences of the characterisation of C20."
  },
  {
   "property": "C142",
   "status": "proved",
   "theorems": [
    "C142_within",
    "C142_unequal"
   ],
   "note": "The condition of equal damping is part of the property; C142_unequal shows that it is needed."
  },
  {
   "property": "C143",
   "status": "proved",
   "theorems": [
    "C143_lookup",
    "C143_assertion",
    "C143_stacked",
    "C143_model"
   ],
   "note": "Binary64 arithmetic by Flocq (FLT, radix 2, 53 bits, emin -1074, nearest even); overflow to infinity is not modelled. Proved for every profile whose layer objects are distinct and whose bottom layer is not equal to another layer of non-zero thickness (see C08)."
  },
  {
   "property": "C144",
   "status": "proved",
   "theorems": [
    "C144_depths",
    "C144_stresses"
   ],
   "note": "Error (1 + 2^-53)^n - 1 relative to the exact sum. Products that are neither zero nor below 2^-1022 in the case of stresses; no overflow."
  },
  {
   "property": "C145",
   "status": "partial",
   "theorems": [
    "C145_refuted",
    "C145_fill",
    "C145_hosts",
    "C145_reaches",
    "C145_model"
   ],
   "note": "False as stated: C145_refuted gives depths for a profile of 17.3 m for which a layer of 2^-48 m is added below the truncated one. What holds for all inputs (at most one additional layer of at most one unit in the last place, total thickness within 1.5 units, no LookupError) is C145_fill, C145_hosts and C145_reaches."
  },
  {
   "property": "C146",
   "status": "proved",
   "theorems": [
    "C146_sublayers"
   ],
   "note": "Division by the optimal thickness and by the count rounded separately; shear velocity, maximum frequency and wave fraction enter through the rounded optimal thickness. No overflow."
  },
  {
   "property": "C147",
   "status": "proved",
   "theorems": [
    "C147_energy",
    "C147_energy_low",
    "C147_surface"
   ],
   "note": "Even FFT lengths; exact real arithmetic (no rounding of the FFT). The lower bound needs real end components, because the inverse transform discards the imaginary parts of the first and last component."
  },
  {
   "property": "C148",
   "status": "partial",
   "theorems": [
    "C148_fixed",
    "C148_series"
   ],
   "note": "False of the code for outputs whose references come with each result: C148_series shows that to_dataframe raises ValueError for every such output holding two or more results. For fixed references the table is established (C148_fixed). Names that are tuples are not modelled."
  },
  {
   "property": "C149",
   "status": "partial",
   "theorems": [
    "C149_table",
    "C149_read",
    "C149_layers",
    "C149_statistics",
    "C149_depths",
    "C149_refuted"
   ],
   "note": "False of the code for an output holding a single profile: C149_refuted. Established for two or more profiles. A single record with several recorded runs is covered; names that are tuples are not modelled."
  },
  {
   "property": "C150",
   "status": "proved",
   "theorems": [
    "C150_rigid"
   ],
   "note": "Rounding is not modelled; frequencies with |w| <= 1e-8 take the early-return branch and are covered by other properties."
  },
  {
   "property": "C151",
   "status": "proved",
   "theorems": [
    "C151_standing",
    "C151_energy",
    "C151_nodes"
   ],
   "note": "for sites whose layers have positive modulus and weight and zero damping after limiting"
  },
  {
   "property": "C152",
   "status": "proved",
   "theorems": [
    "C152_branch",
    "C152_total",
    "C152_underflow"
   ],
   "note": "products and sums in any order; C152_underflow shows that the limit on the weights is needed"
  },
  {
   "property": "C153",
   "status": "proved",
   "theorems": [
    "C153_edited",
    "C153_rejected",
    "C153_curve"
   ],
   "note": "strains one-dimensional and finite; rounding is not modelled"
  },
  {
   "property": "C154",
   "status": "partial",
   "theorems": [
    "C154_columns_partial",
    "C154_first_only",
    "C154_refuted"
   ],
   "note": "False of the code when several strains are requested of a curve with several columns: only the first is used (C154_first_only, C154_refuted). Established for one strain (C154_columns_partial)."
  },
  {
   "property": "C155",
   "status": "partial",
   "theorems": [
    "C155_call",
    "C155_returned",
    "C155_refuted"
   ],
   "note": "False of the code after a call that raises (C155_refuted): profile and motion are stored before the calculation and the amplification is kept. Established for calls that return (C155_call, C155_returned), standard method."
  },
  {
   "property": "C156",
   "status": "proved",
   "theorems": [
    "C156_products",
    "C156_marginals"
   ],
   "note": "exact arithmetic; rounding of the weights is C152"
  },
  {
   "property": "C157",
   "status": "proved",
   "theorems": [
    "C157_balance",
    "C157_upwards",
    "C157_reflected"
   ],
   "note": "layers as the equivalent-linear model sees them (constant properties); Python kernel"
  },
  {
   "property": "C158",
   "status": "proved",
   "theorems": [
    "C158_response",
    "C158_record",
    "C158_limit"
   ],
   "note": "exact arithmetic, positive damping; odd FFT lengths are C48"
  },
  {
   "property": "C159",
   "status": "partial",
   "theorems": [
    "C159_one",
    "C159_tree_partial",
    "C159_floats",
    "C159_refuted"
   ],
   "note": "False of the code for floats: a single float is compared with np.isclose, the entries of a list exactly (C159_refuted, with 0.1 + 0.2 and 0.3). Established for all other values (C159_one, C159_tree_partial)."
  },
  {
   "property": "C160",
   "status": "proved",
   "theorems": [
    "C160_response",
    "C160_limit"
   ],
   "note": "exact arithmetic, positive damping, even FFT lengths"
  },
  {
   "property": "C161",
   "status": "proved",
   "theorems": [
    "C161_run",
    "C161_physical",
    "C161_scaled"
   ],
   "note": "exact arithmetic; records with an even FFT length and clear frequencies"
  },
  {
   "property": "C162",
   "status": "proved",
   "theorems": [
    "C162_exact",
    "C162_limits",
    "C162_points",
    "C162_ends",
    "C162_segment",
    "C162_chord",
    "C162_accuracy",
    "C162_order"
   ],
   "note": "one-dimensional tables; np.log is any function with binary64 results that never decreases, with or without a fused last step; overflow is not modelled"
  },
  {
   "property": "C163",
   "status": "proved",
   "theorems": [
    "C163_run"
   ],
   "note": "C163_run for every calculator, smoothing routine that keeps non-negative arrays non-negative, site and motion; runs whose strain spectrum is 0/0 (reported by the model as NotFinite) are left out by hypothesis. C163_ex runs it on a nonlinear layer."
  },
  {
   "property": "C164",
   "status": "proved",
   "theorems": [
    "C164_state",
    "C164_linear"
   ],
   "note": "C164_state and C164_linear, jointly in frequency, layers and depths; the number of layers is fixed. At zeros of the input motion (possible for within input without damping) there is no transfer function, C25."
  },
  {
   "property": "C165",
   "status": "proved",
   "theorems": [
    "C165_stays",
    "C165_exists",
    "C165_peak",
    "C165_record"
   ],
   "note": "C165_exists covers one nonlinear layer anywhere above the half-space and every other layer linear, for motions whose peak is continuous in the transfer function; C165_record establishes that continuity for records with an even transform length. Several nonlinear layers would need a fixed-point theorem in many dimensions that the libraries do not have; the property is stated for one. The state is found as a zero of a continuous function; nothing is said about how many there are."
  },
  {
   "property": "C166",
   "status": "proved",
   "theorems": [
    "C166_limit",
    "C166_record"
   ],
   "note": "For any number of nonlinear layers. The theorem says what a limit must be; that the iteration has a limit is not claimed (it need not have one)."
  },
  {
   "property": "C167",
   "status": "proved",
   "theorems": [
    "C167_state",
    "C167_linear"
   ],
   "note": "The kernels' zero-frequency branch is included. Location depths are kept fixed (C164 moves them too). Smoothed outputs are not covered."
  },
  {
   "property": "C168",
   "status": "proved",
   "theorems": [
    "C168_call",
    "C168_clear",
    "C168_limit",
    "C168_outputs"
   ],
   "note": "The conditions on tolerance and damping are needed as stated: an error equal to the tolerance can change the number of passes, and the relative error of a zero damping is a different branch. The limit may be reached in a pass, as long as no strain asked for equals it. Smoothed outputs are not covered. Location depths are kept fixed."
  },
  {
   "property": "C169",
   "status": "proved",
   "theorems": [
    "C169_error",
    "C169_finite"
   ],
   "note": "The smoother of the ko method is any function that keeps lengths and does not turn amplitudes with a positive one into zeros only. For ka02 finiteness is not claimed (its logarithms need positive amplitudes above the mean frequency); such runs are followed up to the first number that is not finite."
  },
  {
   "property": "C170",
   "status": "proved",
   "theorems": [
    "C170_iff",
    "C170_two"
   ],
   "note": ""
  },
  {
   "property": "C171",
   "status": "proved",
   "theorems": [
    "C171_node",
    "C171_branch",
    "C171_at_most",
    "C171_count",
    "C171_len"
   ],
   "note": ""
  },
  {
   "property": "C172",
   "status": "partial",
   "theorems": [
    "C172_before",
    "C172_iff",
    "C172_refuted"
   ],
   "note": "False of the code as stated: the waves are computed at the start of each pass and never after the last change of strain. C172_before says which layers they belong to, C172_iff when these agree with the reported ones, C172_refuted exhibits a converged run where they do not."
  },
  {
   "property": "C173",
   "status": "proved",
   "theorems": [
    "C173_equal",
    "C173_stored",
    "C173_layer_equal",
    "C173_quality",
    "C173_run",
    "C173_linear_run"
   ],
   "note": ""
  },
  {
   "property": "C174",
   "status": "proved",
   "theorems": [
    "C174_known",
    "C174_values",
    "C174_unknown_class",
    "C174_depth_known",
    "C174_depth_unknown",
    "C174_depth_values"
   ],
   "note": ""
  }
 ]
}
