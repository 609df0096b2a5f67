# Formal model of pystrata in Rocq (Coq 8.16.1)

Source: `/repo` (arkottke/pystrata, pinned commit), read as text. The code was never run.

## 1. Layout

`rocq/theories/`

* `Common.v` – results with exceptions as values, boolean comparisons on reals, Python list indexing.
* `Model/*.v` – the model: definitions only, each citing file and lines. No proofs.
* `Spec/*.v` – small specifications, written without using the model's functions.
* `Proof/*.v` – lemmas.
* `Props/*.v` – the property theorems (each closed by `exact`), `Print Assumptions` under each one, and a
  concrete example meeting the hypotheses beside each.

`MANIFEST.json` maps each property of `properties.jsonl` to its theorems. `seeded/LOG.jsonl` records the wrong
programs the theorems were tried against.

## 2. Trusted base

* Coq's kernel (8.16.1), and the correspondence between `/repo` and `Model/`, which was checked by reading only.
* Floating point is modelled by exact arithmetic, except in `RoundedTree.v` (branch weights, C152), `RoundedCurve.v` (evaluation of curves, C162; `np.log` is a parameter, and the operations of `np.interp` are those of numpy's C source) and in `Rounded.v`, which repeats the geometry of profiles and the
  Toro layering with IEEE 754 binary64 rounding (Flocq) after every operation (C143-C146). Exact arithmetic means reals (`R`), complex numbers (Coquelicot's `C`), rationals (`Q`),
  integers (`Z`, `nat`). Rounding, overflow, NaN propagation and numpy warnings are outside the model unless a
  definition says otherwise; where Python would produce `inf` or `nan` the model either returns an explicit value
  for it or the theorem carries a hypothesis excluding it.
* `Print Assumptions`: see section 5.
* External code (FFT, scipy distributions and optimisers, random generators, file and JSON readers, plotting) is not
  modelled; where a function needs it, it is a parameter (a function argument or a Section variable) over which the
  theorems quantify.

## 3. Per-property plan

| id | what is modelled | how it is proved |
|----|------------------|------------------|
| C01 | `NonlinearCurve.__call__`, scipy `interp1d` linear with fill values, `np.clip` | clip lemma, all strains |
| C02 | same | induction over the table; independent spec: chord through neighbours |
| C03 | same | induction over the table, piecewise-linear monotone |
| C04 | same, with `interp1d`'s sort and the unsorted fill values | refuted by a two-point table in descending order; positive version for inputs inside the table |
| C05 | `Layer._compute_damping`, strain setter | direct, using C02 |
| C06 | `comp_shear_mod` three models, `np.sqrt` on complex | algebra in `C` |
| C07 | `Layer` state machine | induction over operations |
| C08 | heap of layers and profiles; `append`, `insert`, `update_layers`, thickness setter | invariant over histories under the condition that no layer above equals the bottom one; refuted without |
| C09 | same, `stress_vert` | same invariant |
| C10 | `pore_pressure`, effective stress | real arithmetic |
| C11 | `lookup_depth` | induction; uniqueness |
| C12 | `location(index=)` through `list.index` | refuted; positive for pairwise-distinct layers |
| C13 | `Profile.copy` | refuted after a nonlinear calculation; positive when strain-compatible = initial |
| C14 | `auto_discretize` | list induction, ceil |
| C15 | `auto_discretize` on the heap | refuted (aliasing); positive when all is copied except the half-space |
| C16 | `time_average_vel`, `np.interp` | equality with the travel-time integral |
| C17 | `vs30` | positive for depth ≥ 30 m; refuted otherwise |
| C18 | `adjust_damping_values`, `site_attenuation` | positive for the covered exclusion pattern; refuted otherwise |
| C19 | `my_trapz` | equals the integral of the step function |
| C20 | `_calc_amp` | fuel-50 loop; invariants |
| C21 | `_calc_waves` | complex field identities per interface, induction over the layers |
| C22 | `calc_accel_tf` | algebra |
| C23 | `_calc_waves` on split layers | matrix-semigroup property, induction |
| C24 | both kernels | equality except at the mask boundary; boundary case reported |
| C25 | `_calc_waves` | energy-flux argument: monotone flux along the recursion |
| C26 | `EquivalentLinearCalculator.__call__` with an arbitrary strain oracle | induction on fuel |
| C27 | `relative_error`, loop | refuted (no absolute value); positive one-sided bound |
| C28 | loop | invariant and exact characterisation of the error |
| C29 | loop with linear soils | direct |
| C30 | `_calc_strain_tf`, displacement field | derivative in `C`; the array of a run, entry by entry |
| C31–C32 | `iter_thickness`, `ToroThicknessVariation.__call__` over arbitrary positive streams | fuelled loop, sums |
| C33 | `VelocityVariation.__call__` with arbitrary correlated draws | algebra with exp |
| C34 | `_calc_covar_matrix` | symmetric/diagonal proved; PSD refuted |
| C35 | `_calc_corr` | real inequalities |
| C36–C38 | `SoilTypeVariation`, `vary_profile`, `iter_varied_profiles` | lists, heap |
| C39–C40 | `HalfSpaceDepthVariation` | lists; heap (refuted) |
| C41–C44 | `logic_tree.py`, all | lists; soundness/completeness; sums over products; finite table |
| C45–C47 | `append_arrays`, `Output` state machine with failures | refinement to a list of results |
| C48, C49, C67 | `motion.py` | integer arithmetic; complex algebra; DFT pair as a spec |
| C50, C51 | `WangSoilType` | finite case analysis over key sets; refuted (double conversion) |
| C52, C53 | hyperbolic models | real analysis (derivatives of log terms) |
| C54, C55 | `parse_fixed_width`, `load_shake_inp` | strings/lists |
| C56–C58 | `_simplify_profile`, `calc_mean_eff_stress`, `kea16_profile` | lists, reals |
| C59, C60, C61 | dataframe columns, site class, curve data | records; case analysis; finite data generated from the toml file |
| C62–C66, C68–C70 | as named | direct |
| C71–C74 | `eql_loop`, `iter_results`, profile outputs, `calc_stats` | loop invariants; lists; sums |
| C75 | `calc_time_series` with a transfer function | orthogonality of the discrete exponentials |
| C76 | `correction_ba23` | real inequalities |
| C77–C82 | `iter_varied_profiles`, varied layers, truncated normal, `generic_model`, Toro coefficients, depth-dependent deviations | heap, lists, integrals |
| C83–C87 | `WangSoilType`, Darendeli, Alemu | case analysis over groups and levels; real analysis |
| C88 | Masing damping | integral of the loop, antiderivative |
| C89–C90 | exclusion list, scattering of a uniform profile | strings; transfer function of a uniform profile |
| C91–C97 | fixed-width fields, AT2, SMC, nrattle, SHAKE | parsers against written files |
| C98–C100 | `kea16_profile`, `load_ncm_profile` | direct |
| C101–C103 | `KishidaSoilType` | real analysis of the quotient of logarithms; the default table |
| C104 | strain spectrum of the frequency-dependent calculator | list induction (running maximum), shape of the fitted curve; areas below polylines as integrals |
| C105–C106 | its passes, limit, errors and the layers it leaves | induction over the loop, as for C26–C28 and C71 |
| C107–C108 | method names, nested estimate | refuted by runs on a one-layer site |
| C109 | linear soils | invariant of the loop: every layer keeps its initial values |
| C110 | damping profile of a run | refuted; shapes of the stored arrays |
| C111, C117 | outputs at a location after a run on a record | non-zero waves on sound layers, discrete Fourier inversion; lookup of layer tops |
| C112 | strains, stresses and stress ratios of a run | what the run leaves behind (as C71) and scaling of series |
| C113, C115 | ratios and superposition | linearity of the Fourier pair; peaks scale |
| C114 | spectra at requested frequencies | interpolation on increasing frequencies (as C02) |
| C116 | normalised stress | refuted at the surface and in the half-space; the other locations proved |
| C118 | frame of a run | induction over the loop |
| C119, C120 | fixed percentiles | monotone quantiles; second deviation = factor times the first; sign refuted for the default correlation |
| C121 | spread of varied curves | closed forms of the two models |
| C122 | amplification bounds | induction over the layers on the real amplitudes of the up- and downgoing waves |
| C123 | one layer on a half-space | closed form of the recursion; resonance as an instance |
| C124 | independence of earlier runs | reset is a function of the description; frame theorem of each calculator |
| C125 | continuing a run | split of the loop, shift of the iteration counter, the recorded maximum is never read |
| C126 | numbers of files | induction over the digits; positional value against the accumulating reader |
| C127 | order of curves | induction over the sorted table, for an arbitrary tolerance |
| C128 | trends of the soil models | monotone reference strain, scaling and minimum damping, then C127 |
| C129 | SHAKE profiles | written file against the reader: C54 for the lines, C126 for the numbers, induction over the layers |
| C130 | logic trees from JSON | relation between trees and JSON values, induction over the lists; tuples refuted |
| C131 | malformed trees | classification of the faults, first faulty item |
| C132 | lookups | first match by induction; soundness of iteration; closeness refuted |
| C133 | scaling of measures | linearity of the transforms; trapezoids of squares and magnitudes |
| C134 | delays | phase factors of the shifted transform; permutation of samples |
| C135 | peak velocity | derivative of finite harmonic sums; inverse of the transform; refuted at the highest frequency |
| C136 | energy | Parseval from the inverse transform by exchanging sums |
| C137 | cached measures | invariant of the caches over histories |
| C138 | shared array | induction over histories; refuted by one write |
| C139 | both kernels' recursion, fields over depth | solutions of the wave equation are pairs of plane waves (constants of motion); induction over interfaces |
| C140 | waves, transfer functions | scaling of velocities, wave numbers and interfaces; induction over layers |
| C141 | quarter-wavelength loop | bounds and monotonicity of depth averages; induction over refinements |
| C142 | waves of one damping ratio | real impedance contrasts; downgoing waves no larger than upgoing ones; witness with unequal dampings |
| C143 | `update_layers`, `lookup_depth`, `stress_vert` with binary64 rounding after every operation (`Rounded.v`, Flocq) | monotone rounding; induction over the stack; independent spec `stacked` |
| C144 | same | (1 + u)^n error analysis by induction; Flocq's error of a sum without underflow |
| C145 | `iter_thickness` in binary64 over arbitrary computed depths | Sterbenz for the additional layer; refuted by evaluated roundings at 17.3 m |
| C146 | the count and thickness of sub-layers in binary64 | relative errors of the two quotients, ceiling |
| C147 | `calc_time_series` with an array, `AccelerationTSOutput` | Parseval over the half spectrum; bound of the surface transfer function from C122 |
| C148 | `Output.to_dataframe`, pandas' shape checks (`Model/Tables.v`) | case analysis on the number of results; refuted for two or more per-result references |
| C149 | `ProfileBasedOutput.to_dataframe`, `calc_stats` and their default depths | columns are `profile_at` of each entry (C73); refuted for a single profile |
| C150 | `_calc_waves`, `wave_at_location`, `calc_accel_tf` | induction over layers on the departure of the sum and the impedance-weighted difference of the waves; |exp z - 1| <= exp(|Re z|+|Im z|) - 1 and Bernoulli |
| C151 | `_calc_waves`, `wave_at_location`, `calc_accel_tf`, `calc_strain_tf` | invariant: the down-going amplitude is the conjugate of the up-going one; closed forms at a depth |
| C152 | `Branch.weight` | reductions in any order as an inductive relation; induction with two-sided relative bounds; witness of underflow |
| C153 | `NonlinearCurve` setters, `_update`, `__call__` | the object with its interpolators; induction over the assignments |
| C154 | `NonlinearCurve._update`, `__call__`, several columns | table of each column; witness that later strains are ignored |
| C155 | `QuarterWaveLenCalculator.__call__` with a profile | travel time and mass as integrals over the layers; witness of a stale result |
| C156 | `LogicTree.__iter__`, `Branch.weight` | all candidates are yielded; induction on the product; indicator functions for marginals |
| C157 | `_calc_waves_python`, `calc_accel_tf`, `calc_strain_tf`, `calc_stress_tf` | work of a cycle as an integral; derivative of the flux along depth; induction over the layers |
| C158 | `calc_osc_accels`, `_calc_sdof_tf` | oscillator transfer function close to 1 below its frequency; energy bound of the difference |
| C159 | `matches`, `LogicTree.__iter__` | iteration commutes with rewriting of conditions; witness with binary64 values |
| C160 | `calc_osc_accels`, `_calc_sdof_tf` | oscillator transfer function small above its frequency; response to the zero frequency alone; energy bound of the difference |
| C161 | `EquivalentLinearCalculator.__call__`, `Layer.strain` | below the first tabulated strain a curve returns its first value, so the pass changes nothing and the error is zero; scaling a record scales its peak velocity and strains |
| C162 | `NonlinearCurve.__call__` with rounding | monotonicity of rounding gives the exact clauses; relative errors of the five operations of `np.interp` give the bound; perturbation of the chord by the error of the logarithm |
| C163 | `FrequencyDependentEqlCalculator`, `Layer.strain` | the estimator leaves every layer at rest (C161); the spectrum never exceeds the effective strain, so each entry lies below the first tabulated strain and the update changes nothing |
| C164 | wave kernels, `calc_accel_tf`, `calc_strain_tf`, `Layer.comp_shear_mod` | limits along the filter of nearby setups, component by component; the square root is continuous in the right half plane; the recursion over layers by induction |
| C165 | `EquivalentLinearCalculator.__call__`, `Layer.strain`, `calc_peak` | curves are continuous and constant outside their tables, so the effective strain as a function of the assumed strain has a fixed point (intermediate values); peaks of a record are Lipschitz in the transfer function |
| C166 | `EquivalentLinearCalculator.__call__` | successive passes by induction on `max_iterations`; moduli stay above a positive floor; waves, peaks and curves are continuous, so the equation of a pass survives the limit |
| C167 | `LinearElasticCalculator.__call__`, outputs at a location | per-frequency continuity (C164) and the zero-frequency row, uniformly over the frequencies of the record; series and peaks are Lipschitz in the transfer function (Parseval); interpolation is a convex combination |
| C168 | `EquivalentLinearCalculator.__call__`, outputs at a location | curves, peaks (with the mid-depth moving) and relative errors are continuous; one pass, then induction on the passes; the comparison with the tolerance is stable off equality; the errors of the unstopped iteration are the finitely many excluded tolerances |
| C169 | `FrequencyDependentEqlCalculator.__call__`, `_calc_strain` | invariant: each layer has a number or one value per frequency, moduli positive; waves of sound layers exist at every frequency; energy flux through mid-depth is positive when damped, so the strain amplitude is not zero; induction over the passes |
| C170 | `FrequencyDependentEqlCalculator._calc_strain` (ka02) | trapezoids over positive values are positive; points below the mean are a prefix; with one point or none the area is zero and the quotient not finite |
| C171 | `Node.__post_init__`, `__len__`, `__getitem__`, `options`, `to_xarray`; `Branch.__getitem__`, `__contains__`, `value` | positions by cases on the sign of the index; length of the product of lists; the loop yields at most one branch per combination, and with distinct values one for each |
| C172 | `EquivalentLinearCalculator.__call__`, `_calc_waves` | the last pass of the loop; wave numbers determine the complex velocity, hence the complex modulus, hence modulus and limited damping; witness: the converged soft site of C27 |
| C173 | `SoilType.copy`, `SoilType.quality` | replacing soil types commutes with reset, strain assignment, waves, passes and the loop |
| C174 | `ToroVelocityVariation.generic_model`, `DepthDependToroVelVariation.generic_model`, both constructors | dictionaries as association lists; lookup in an updated dictionary |

Properties that turn out false of the code get a `_refuted` theorem with a witness, next to the strongest
true variant.

## 4. Modelled / not modelled

Everything is scalar unless said otherwise: two-dimensional curves are modelled as objects only (`CurveObject.v`) and used by no layer, and layer properties
that are arrays over frequency occur only in `Fdm.v`.

| source | modelled (file in `Model/`) | not modelled |
|--------|-----------------------------|--------------|
| `site.py` 48-276 curves | `Curve.v`: construction, `__call__` with scipy's `interp1d` (sorting, fill values) and `np.clip`; `CurveObject.v`: the object with its setters and two-dimensional `values`; `Published.v`: the whole toml file as exact decimals, `from_published`, `known_published_curves` | layers whose curves have two-dimensional `values`; decoding of the toml file |
| `site.py` 279-367 `SoilType` | `Layer.v`: density, minimum damping, nonlinearity, equality; `SoilCopy.v`: `copy`, `quality`; `Published.v`: `from_published` | `__hash__`, attributes added to an instance later |
| `site.py` 370-676, 1304-1502 | `SoilModels.v`: modified hyperbolic, Darendeli, Menq, Rollins, two-parameter, Alemu; `Kishida.v` | array parameters; formatted names |
| `site.py` 679-1301 | `Wang.v`: decimal conversion, level selection, all formulas of all groups and levels, constructor | formatted names |
| `site.py` 1683-2000 `Layer` | `Layer.v`: the state machine, equality, copying, strain and damping setters, errors, stresses; `Waves.v`: complex modulus (three models) and velocity | `repr`, `__hash__`; properties that are arrays |
| `site.py` 2003-2437 `Profile` | `Profile.v` over a heap of layer objects (sharing visible): append, insert, copy, positions, stresses, lookup, locations, discretisation; `Rounded.v`: depths, stresses, lookup and sub-layers in binary64; `Averages.v`; `Tools.v`: data frames | plotting; pandas beyond columns by name |
| `propagation.py` 76-331, 555-719 | `Waves.v`: both kernels (Python and Numba), waves, transfer functions, strain and stress transfer functions | floating-point underflow in the kernels |
| `propagation.py` 334-552 | `Qwl.v`: averaging, amplification, the 50-pass loop, `fit` around an arbitrary optimiser | the optimiser |
| `propagation.py` 722-876 | `Eql.v`: the iteration with errors, limits and exceptions | printing; the state after an exception |
| `propagation.py` 879-1001 | `Fdm.v`: the spectrum of each method, the passes over array-valued layers, the nested estimate, the damping profile | the least-squares solver and the smoother (arguments); runs after a number that is not finite |
| `motion.py` | `Motion.v`: `TimeSeriesMotion` with the transforms as sums, peaks, spectra; `MotionObject.v`: cached measures and the shared array; `Text.v`: both file readers | `pyrvt` motions; binary or gzipped files; universal newlines |
| `output.py` | `Output.v`: accumulation, names, references, statistics, profile outputs, interpolation, Arias and CAV; `Results.v`: series, spectra, transfer functions and ratios at a location after a run on a record; `Tables.v`: `to_dataframe` and the statistics of profiles | plotting, Konno-Ohmachi smoothing (an argument), integer arrays, names that are tuples, random-vibration motions |
| `variation.py` | `Variation.v`, `VariationGeneric.v`, `Gauss.v`: everything except what is listed on the right, with the random numbers as arguments; `Rounded.v`: the Toro layering in binary64 | the generators themselves; `scipy.stats` distributions other than the truncated normal |
| `logic_tree.py` | `LogicTree.v`: validity, iteration, weights, Miller-Rice nodes, lookups, trees from decoded JSON; `LogicTreeNode.v`: container methods of nodes and branches, data and coordinates of `to_xarray` | the text of JSON, `params`, other parts of the xarray object |
| `tools.py` | `Tools.v`: scattering, damping adjustment, mean stress, nrattle; `Text.v`, `Shake.v`: fixed-width fields, SHAKE and nrattle files | the regular expressions given by a user; the motion file read by SHAKE option 3 |
| `generic.py` | `Generic.v`: Kamai profile, simplification and loading of NCM profiles | download and JSON decoding; warnings |

## 5. Assumptions

`Print Assumptions` stands under every theorem of `Props/`. It lists nothing but axioms of Coq's standard library,
which come with its real numbers (`sig_forall_dec`, `sig_not_dec`, `functional_extensionality_dep`) and with classical
logic as used by the standard library's and Coquelicot's analysis (`classic`). No axiom is declared here and no kernel check is switched off.

* Closed under the global context (no axioms):
  C56_empty, C101_empty, C41_iteration, C41_sound_or_exception, C42_branch_weight, C42_unconditional, C42_conditional, C42_refuted, C43_miller_rice, C43_unsupported, C43_exact_sum, C44_validity, C44_unconditional, C171_node, C171_branch, C171_at_most, C171_count, C171_len, C41_duplicates, C130_read, C130_plain, C130_tuples, C130_lists, C130_refuted, C131_problem, C132_first, C132_none, C132_error, C132_branch, C132_name, C132_no_name, C132_refuted, C156_products, C156_marginals, C159_one, C159_tree_partial, C159_floats, C159_refuted, C126_int, C126_int_rejects, C126_int_error, C72_iterates, C72_iterates_fixed, C66_top, C66_accel, C61_names_partial, C61_lookup, C61_known, C55_option_lines, C97_lookup, C97_unknown, C37_refuted, C38_count, C38_cycle, C148_fixed, C148_series, C54_read_back, C54_short, C54_integers, C91_refuted, C89_refuted, C50_level_partial, C50_refuted, C24_no_numba.
* `ClassicalDedekindReals.sig_forall_dec`:
  C45_accumulates, C45_accumulates_fixed, C45_refuted_empty, C46_fails_iff, C46_names_count_partial, C46_default_name, C46_refuted_duplicate, C46_collection, C46_collection_failure, C47_reset, C47_reset_forgets, C69_refuted.
* `FunctionalExtensionality.functional_extensionality_dep`, `ClassicalDedekindReals.sig_forall_dec`:
  C17_refuted, C71_ratio, C56_grouping, C56_grouping_unique, C56_merged, C56_depths, C56_keeps_partial, C56_refuted, C56_balance, C99_loads, C99_columns, C100_refuted, C49_zero, C126_float, C126_float_error, C126_at2, C126_fields, C46_refuted, C46_refuted_half_space, C66_max_strain, C66_csr, C66_csr_content, C66_pairs, C09_total_stress, C10_pore_pressure, C10_effective, C11_lookup, C11_interface, C11_negative, C12_equality, C08_bottom, C12_index, C12_layer, C61_tables_partial, C61_modulus_refuted, C61_damping_refuted, C61_soil_refuted, C61_pair, C61_missing, C19_average, C24_depth_average, C24_refuted_depth_average, C112_effective, C143_model, C55_refuted, C55_last_ignored, C55_zero_dropped, C95_refuted, C96_refuted, C97_curves, C129_profile, C129_water_table, C129_unknown, C129_file, C96_conversion, C173_equal, C173_stored, C173_layer_equal, C173_quality, C53_default_coefficients, C64_first_valid, C35_parameters, C38_constructor, C149_depths, C92_values, C92_short, C93_values, C93_other, C94_values_partial, C94_refuted, C57_value, C57_profile, C57_differs, C59_depths, C69_q, C69_inverse_q, C69_zero, C69_layers_partial, C174_known, C174_values, C174_unknown_class, C174_depth_known, C174_depth_unknown, C174_depth_values, C60_classes, C60_known, C80_refuted, C80_with_depths, C82_named, C82_unnamed.
* `FunctionalExtensionality.functional_extensionality_dep`, `ClassicalDedekindReals.sig_forall_dec`, `ClassicalDedekindReals.sig_not_dec`:
  C123_closed_form, C123_undamped, C123_resonance, C124_linear, C16_time_average, C16_bounds, C17_deep, C70_formula, C70_rayleigh_scales, C70_time_average_scales, C165_peak, C164_state, C164_linear, C106_waves, C133_scaled, C134_series, C134_measures, C136_parseval, C136_arias, C136_cav, C137_kept, C138_agrees_partial, C138_record, C138_refuted, C160_response, C160_limit, C48_defined, C48_counts_partial, C48_step, C48_refuted_odd, C48_refuted_short, C67_round_trip, C67_peak, C67_arias, C75_spectrum, C49_magnitude, C49_spectrum, C62_monotone, C62_last, C62_length, C62_refuted_times, C30_rows, C13_copy, C13_copy_velocity, C14_refines, C15_refuted, C20_quarter_wavelength, C147_energy, C147_energy_low, C111_self, C112_stress, C113_laws, C113_scaled, C114_transfer, C114_fourier, C115_accel, C115_strain, C115_stress, C115_response, C115_fourier, C116_surface, C116_below, C116_inside_partial, C117_peaks, C90_refuted, C158_response, C158_record, C158_limit, C173_linear_run, C36_limits, C36_outside, C37_shared_partial, C78_refuted, C38_index, C38_deterministic, C38_refuted_direct_call, C63_inside, C63_median_spid, C38_modes, C121_darendeli_mod, C121_darendeli_damp, C121_spid_mod, C151_standing, C151_nodes, C39_depth_partial, C39_refuted, C40_refuted, C67_times, C18_meets_target_partial, C18_refuted, C18_deep_refuted, C18_iff, C18_dampings, C18_errors, C18_total, C18_in_place, C18_copy, C59_refuted, C59_renamed_partial, C34_shape_partial, C34_weak, C34_two_layers, C23_depths, C23_discretised_depths, C140_similar, C06_modulus, C06_all_models, C21_refuted_below_threshold, C22_self, C22_compose, C22_outcrop, C22_surface, C22_zero_frequency, C23_split, C23_refinement, C23_discretised, C24_waves, C24_location, C24_strain, C24_refuted_threshold, C24_refuted_zero_velocity, C30_zero, C30_within_only, C30_stress, C30_surface.
* `Classical_Prop.classic`, `FunctionalExtensionality.functional_extensionality_dep`, `ClassicalDedekindReals.sig_forall_dec`, `ClassicalDedekindReals.sig_not_dec`:
  C122_bound, C122_stiffening, C124_eql, C124_again, C124_fdm, C124_fdm_again, C124_fdm_after_eql, C125_continues, C165_stays, C165_exists, C165_record, C01_limits, C01_modulus_default, C01_damping_default, C01_defined, C02_between, C02_at_point, C02_below, C02_above, C03_antitone, C03_monotone, C04_inside_partial, C04_refuted, C65_refuted, C65_damping_refuted, C153_edited, C153_rejected, C153_curve, C154_columns_partial, C154_first_only, C154_refuted, C157_balance, C157_upwards, C157_reflected, C26_stops, C26_only_limit_error, C27_one_sided_partial, C27_refuted, C27_early_stop, C27_bedrock_blocks, C28_enforced_partial, C28_limited_flag, C28_error, C28_refuted_half_space, C28_half_space_strain, C29_linear, C29_linear_physical, C71_compatible, C168_call, C168_clear, C168_limit, C168_outputs, C104_bounds, C104_ko, C104_ko_values, C104_ko_unread, C104_zr15, C104_ka02, C105_stops, C105_limit, C105_error, C106_compatible, C106_change, C107_refuted, C107_other, C108_refuted, C108_estimate, C108_passes, C109_linear, C110_refuted, C110_arrays, C110_mixed, C110_numbers_partial, C169_error, C169_finite, C110_always, C163_run, C58_region, C58_depths, C58_surface, C58_increases, C98_refuted, C135_velocity_partial, C135_zero, C135_refuted, C170_iff, C170_two, C101_shape, C101_defaults, C102_ratio, C102_weight, C103_refuted, C102_density, C172_before, C172_iff, C172_refuted, C05_shift, C05_small_strain, C05_constant, C05_adjusted_curve, C07_history, C07_history_default, C07_reset_forgets, C31_layering, C88_loop_area, C86_soil, C53_soil, C49_oscillator, C127_order, C127_close, C73_read_back_partial, C73_refuted_strain, C74_statistics, C74_missing, C74_table, C167_state, C167_linear, C30_run, C104_area, C104_ka02_full, C08_depths, C08_refinement, C08_refuted_equal_bottom, C08_refuted_negative_insert, C08_refuted_insert_past_end, C09_history_stress, C12_refuted, C13_refuted, C15_divided_partial, C61_values, C61_monotone_partial, C20_characterised, C20_uniform, C20_refuted_zero_frequency, C76_defined_partial, C76_refuted, C76_refuted_amp, C76_refuted_half_space, C68_fit_partial, C68_iff, C68_refuted, C141_bounds, C141_stiffening, C155_call, C155_returned, C155_refuted, C147_surface, C150_rigid, C111_input, C111_defined, C111_runs, C111_eql, C48_odd_run, C112_strain, C112_csr, C113_positive, C116_refuted, C118_keeps, C162_exact, C162_limits, C162_points, C162_ends, C162_segment, C162_chord, C162_accuracy, C162_order, C152_branch, C152_total, C152_underflow, C143_lookup, C143_assertion, C143_stacked, C144_depths, C144_stresses, C145_refuted, C145_fill, C145_hosts, C145_reaches, C145_model, C146_sublayers, C90_uniform, C90_frequencies, C166_limit, C166_record, C173_run, C52_shape, C52_running_maximum, C52_bound_needed, C52_darendeli, C52_menq, C52_rollins, C53_two_param, C53_default_limit, C85_refuted, C86_shape, C63_quantile, C63_median, C63_quantile_unique, C63_quantile_exists, C63_median_soil, C79_unit_variance, C79_range, C79_refuted, C77_iteration, C77_frame, C119_refuted, C119_signs, C119_median, C119_factor, C120_first, C120_order_partial, C120_refuted, C121_spid_damp, C151_energy, C149_table, C149_read, C149_layers, C149_statistics, C149_refuted, C32_profile_partial, C32_refuted, C71_stresses, C71_reduction, C128_darendeli_modulus, C128_darendeli_minimum, C128_darendeli_damping, C128_menq_modulus, C128_menq_minimum, C128_menq_damping, C128_rollins_modulus, C128_rollins_damping, C33_velocities, C34_refuted, C34_refuted_toro, C35_correlations, C35_values, C81_refuted, C81_iff, C50_defined, C50_reads, C50_stress_needed, C51_refuted, C51_twice, C51_no_percent_partial, C53_wang_mod_reduc, C53_wang_damping, C83_refuted, C84_minimum_partial, C84_shear_mod_partial, C84_refuted, C84_clay_refuted, C87_constructor, C139_exists, C139_unique, C139_tf, C142_within, C142_unequal, C21_interface, C21_wave_equation, C21_free_surface, C22_physical, C25_nonzero, C25_damped_within, C30_derivative, C161_run, C161_physical, C161_scaled.
