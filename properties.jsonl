{"id": "C01", "title": "Nonlinear curve values never leave the configured limits", "statement": "Calling a modulus-reduction or damping curve with any strain (zero, negative, outside the table, inside the table) returns a value inside the curve's (min, max) limits whenever min <= max; with the default limits G/Gmax is in [0.001, 1] and damping in [0, 0.49].", "quantifier": "every table of strains/values, every limits pair, every strain", "why_tests_cant": "The table and the strain are unbounded real inputs; a test can only sample strains of a few tables.", "anchors": ["src/pystrata/site.py: NonlinearCurve.__call__", "src/pystrata/site.py: ModulusReductionCurve._default_limits", "src/pystrata/site.py: DampingCurve._default_limits"]}
{"id": "C02", "title": "Nonlinear curve interpolates its own table", "statement": "For a curve whose strains are positive and strictly increasing: at every tabulated strain at or above 1e-9 (the smallest strain used by the code) the returned value is the tabulated value (clipped to the limits); below the first strain it is the first value, above the last strain the last value; between two neighbouring tabulated strains it is the value on the straight line in (ln strain, value) between them, hence lies between the two neighbouring values.", "quantifier": "every strictly increasing positive strain table of any length >= 1, every strain", "why_tests_cant": "Unbounded table length and real-valued strain.", "anchors": ["src/pystrata/site.py: NonlinearCurve.__call__", "src/pystrata/site.py: NonlinearCurve._update"]}
{"id": "C03", "title": "Monotone tables give monotone curves", "statement": "If the tabulated values are non-increasing (modulus reduction) or non-decreasing (damping) in strain, then the curve evaluated at a larger strain is never larger (respectively never smaller) than at a smaller strain.", "quantifier": "all pairs of strains, all sorted tables with monotone values", "why_tests_cant": "Relational property over all pairs of inputs.", "anchors": ["src/pystrata/site.py: NonlinearCurve.__call__", "src/pystrata/site.py: NonlinearCurve._update"]}
{"id": "C04", "title": "A curve does not depend on the order in which its points are listed", "statement": "Listing the same (strain, value) points in a different order gives the same curve at every strain (the interpolator sorts its abscissae).", "quantifier": "every table, every permutation of it, every strain", "why_tests_cant": "Quantifies over permutations and strains.", "anchors": ["src/pystrata/site.py: NonlinearCurve._update (fill_value=(y[0], y[-1]))", "src/pystrata/site.py: SoilType.damping_min"]}
{"id": "C05", "title": "Layer damping is the soil curve shifted to the layer's minimum damping", "statement": "After a layer's strain is set, its damping is (soil damping curve at that strain) - (soil minimum damping) + (layer minimum damping); so at strains at or below the first tabulated strain it equals the layer's minimum damping, and for a constant-damping soil it equals the layer's minimum damping at every strain.", "quantifier": "every soil type, layer minimum damping and strain", "why_tests_cant": "Real-valued inputs, every curve.", "anchors": ["src/pystrata/site.py: Layer._compute_damping", "src/pystrata/site.py: Layer.strain setter", "src/pystrata/site.py: Layer.adjusted_damping_curve"]}
{"id": "C06", "title": "Complex shear modulus has the right magnitude and dissipation", "statement": "For the default modulus model the complex shear modulus G* of a layer has magnitude exactly the layer's shear modulus, imaginary part 2*D*G with D the damping limited to [0, 0.49], and strictly positive real part; the complex shear-wave velocity squared times density is G*, with positive real part.", "quantifier": "every positive shear modulus, positive density and every damping value (including negative or > 0.5)", "why_tests_cant": "Holds for a continuum of modulus/damping pairs, including the clipped ranges.", "anchors": ["src/pystrata/site.py: Layer.comp_shear_mod", "src/pystrata/site.py: Layer.comp_shear_vel"]}
{"id": "C07", "title": "Layer state depends only on the last strain, and reset forgets everything", "statement": "After any sequence of strain assignments the layer's shear modulus and damping are those given by the last strain alone, and resetting the layer (or re-assigning the initial velocity / minimum damping) restores the initial modulus density*Vs^2, the minimum damping and the starting strain, whatever happened before.", "quantifier": "every sequence of operations on a layer", "why_tests_cant": "Histories are unbounded.", "anchors": ["src/pystrata/site.py: Layer.reset", "src/pystrata/site.py: Layer.strain setter", "src/pystrata/site.py: Layer.initial_shear_vel setter", "src/pystrata/site.py: Layer.damping_min setter", "src/pystrata/site.py: IterativeValue"]}
{"id": "C08", "title": "Layer depths are the cumulative thickness of the layers above", "statement": "After building a profile (from a list or by append), inserting layers and changing thicknesses in any order, the depth of every layer is the sum of the thicknesses of the layers above it.", "quantifier": "every list of layers and every history of append / insert / thickness changes", "why_tests_cant": "Depends on the whole edit history and on coincidences between layers (value-equality with the bottom layer) that tests do not sample.", "anchors": ["src/pystrata/site.py: Profile.update_layers", "src/pystrata/site.py: Profile.append", "src/pystrata/site.py: Profile.insert", "src/pystrata/site.py: Layer.thickness setter", "src/pystrata/site.py: Layer.__eq__"]}
{"id": "C09", "title": "Vertical stress is the overburden weight", "statement": "The total vertical stress reported at a depth inside a layer is the sum of unit weight times thickness of all the layers above plus unit weight times the distance into the layer; asking beyond the layer's thickness is rejected.", "quantifier": "every profile, every layer, every depth within it, every edit history", "why_tests_cant": "Unbounded profiles and histories.", "anchors": ["src/pystrata/site.py: Layer.stress_vert", "src/pystrata/site.py: Layer.stress_mean", "src/pystrata/site.py: Profile.update_layers"]}
{"id": "C10", "title": "Pore pressure and effective stress", "statement": "Pore pressure is never negative, is zero at and above the water table, grows linearly with slope g below it; the effective vertical stress equals the total above the water table and never exceeds the total.", "quantifier": "every depth and water-table depth, every profile", "why_tests_cant": "Continuum of depths.", "anchors": ["src/pystrata/site.py: Profile.pore_pressure", "src/pystrata/site.py: Layer.stress_vert", "src/pystrata/site.py: Location.stress_vert"]}
{"id": "C11", "title": "Depth lookup finds the layer that contains the depth", "statement": "For any depth >= 0 the lookup returns an index i and an offset such that depth(i) + offset = depth and 0 <= offset, with offset < thickness(i) unless i is the bottom half-space; the result is the only such layer, and looking up depth(i) of a layer of positive thickness returns (i, 0).", "quantifier": "every profile of non-negative thicknesses, every depth (including negative ones)", "why_tests_cant": "Boundary behaviour at every interface of every profile.", "anchors": ["src/pystrata/site.py: Profile.lookup_depth", "src/pystrata/site.py: Profile.location"]}
{"id": "C12", "title": "A location requested by layer index refers to that layer", "statement": "profile.location(wave_field, index=i) returns a Location whose index is i (or len+i for negative i) with zero offset.", "quantifier": "every profile and index", "why_tests_cant": "Fails only when layers coincide by value; tests rarely have equal layers.", "anchors": ["src/pystrata/site.py: Profile.location", "src/pystrata/site.py: Profile.index", "src/pystrata/site.py: Layer.__eq__"]}
{"id": "C13", "title": "Copying a profile preserves what defines it", "statement": "A copy of a profile has, layer by layer, the same soil type, thickness, initial shear-wave velocity and minimum damping, and the same water table, regardless of what calculations were run on the original before.", "quantifier": "every profile state reachable by any history of calculations", "why_tests_cant": "History dependent: strain-compatible state left over by earlier runs.", "anchors": ["src/pystrata/site.py: Profile.copy", "src/pystrata/site.py: Layer.copy", "src/pystrata/site.py: Layer.shear_vel"]}
{"id": "C14", "title": "Auto-discretisation refines without changing the site", "statement": "auto_discretize splits layers into equal sub-layers with the same soil type, velocity and minimum damping such that, for every split layer, sub-layer thicknesses add up to the original thickness and none exceeds wave_frac*Vs/max_freq; other layers and the half-space are kept; total thickness, travel time and damping-attenuation are unchanged, so the half-space stays at the same depth.", "quantifier": "every profile, maximum frequency, wavelength fraction and flag", "why_tests_cant": "Unbounded layers, real-valued ratios through ceil.", "anchors": ["src/pystrata/site.py: Profile.auto_discretize"]}
{"id": "C15", "title": "Auto-discretisation leaves the input profile usable", "statement": "After auto_discretize the original profile's layers still belong to the original profile: a later thickness change of one of its layers updates the original profile's depths.", "quantifier": "every profile containing a layer that is carried over, and every later edit", "why_tests_cant": "Aliasing only visible through a later operation.", "anchors": ["src/pystrata/site.py: Profile.auto_discretize", "src/pystrata/site.py: Layer.thickness setter", "src/pystrata/site.py: Profile.update_layers"]}
{"id": "C16", "title": "Time-averaged velocity is depth over travel time", "statement": "time_average_vel(d) equals d divided by the integral of 1/Vs over [0, d], Vs being the layer velocity and the half-space extending to any depth; hence it lies between the smallest and largest velocity.", "quantifier": "every profile with positive thicknesses and velocities, every d > 0", "why_tests_cant": "All depths relative to all interfaces.", "anchors": ["src/pystrata/site.py: Profile.time_average_vel"]}
{"id": "C17", "title": "Vs30 is the time-averaged velocity over 30 m", "statement": "vs30() equals 30 divided by the shear-wave travel time from the surface to 30 m.", "quantifier": "every profile, whether its half-space is deeper or shallower than 30 m", "why_tests_cant": "Only profiles shallower than 30 m reveal the difference.", "anchors": ["src/pystrata/site.py: Profile.vs30"]}
{"id": "C18", "title": "Damping adjustment achieves the target site attenuation", "statement": "adjust_damping_values returns a profile whose total attenuation (excluded layers + adjusted layers + scattering) equals the requested target; damping is inversely proportional to velocity; excluded layers keep their damping.", "quantifier": "every profile, target and exclusion set for which no error is raised", "why_tests_cant": "Depends on which subset of layers is excluded.", "anchors": ["src/pystrata/tools.py: adjust_damping_values", "src/pystrata/site.py: Profile.site_attenuation", "src/pystrata/site.py: Layer.incr_site_atten"]}
{"id": "C19", "title": "Depth-average used by the quarter-wavelength method", "statement": "The depth average of a layered property down to depth D is (1/D) times the integral of the piecewise-constant property from 0 to D, the last layer extending indefinitely; it lies between the smallest and largest property value.", "quantifier": "every layer list, property list and D > 0", "why_tests_cant": "Partial-layer boundary for every D.", "anchors": ["src/pystrata/propagation.py: _my_trapz_impl", "src/pystrata/propagation.py: _my_trapz_python"]}
{"id": "C20", "title": "Quarter-wavelength amplification", "statement": "Whenever the QWL calculation returns, successive depths agree within 1 % and the amplification is sqrt of the impedance ratio, positive; for a profile with uniform density and velocity it is exactly 1 at every frequency and the site term is exp(-pi*kappa*f); otherwise, after 50 iterations without agreement, an error is raised.", "quantifier": "every profile and every set of positive frequencies", "why_tests_cant": "Iteration outcome over all inputs.", "anchors": ["src/pystrata/propagation.py: QuarterWaveLenCalculator._calc_amp"]}
{"id": "C21", "title": "Displacement and shear stress are continuous across layer interfaces", "statement": "The computed up- and down-going wave amplitudes make displacement and shear stress equal on both sides of every interface between layers, at every non-zero angular frequency (above 1e-8 rad/s; the code treats smaller ones as zero), and the surface is stress free.", "quantifier": "every profile (any number of layers, any complex moduli/velocities), every non-zero frequency", "why_tests_cant": "Physics must hold for every profile/frequency, tests compare a handful against reference files.", "anchors": ["src/pystrata/propagation.py: _calc_waves_python", "src/pystrata/propagation.py: _calc_waves_numba", "src/pystrata/propagation.py: LinearElasticCalculator._calc_waves"]}
{"id": "C22", "title": "Acceleration transfer function laws", "statement": "A transfer function from a location to itself is 1; transfer functions compose (a to b times b to c is a to c); outcrop motion is twice the incoming-only motion; at the free surface outcrop and within motions coincide; and at zero frequency every within/outcrop pair has transfer function 1.", "quantifier": "every profile, frequency and triple of locations with non-zero motion", "why_tests_cant": "Algebraic laws over all locations.", "anchors": ["src/pystrata/propagation.py: LinearElasticCalculator.calc_accel_tf", "src/pystrata/propagation.py: _wave_at_location_python", "src/pystrata/propagation.py: _wave_at_location_numba"]}
{"id": "C23", "title": "Splitting a layer does not change the linear response", "statement": "Replacing a layer by sub-layers of the same material with the same total thickness leaves the wave amplitudes of every layer above and below unchanged, and the motion at any depth inside the split layer unchanged; so transfer functions of a linear analysis do not depend on discretisation.", "quantifier": "every profile, split layer, number and thickness of sub-layers, every frequency", "why_tests_cant": "Quantifies over all refinements.", "anchors": ["src/pystrata/propagation.py: _calc_waves_python", "src/pystrata/site.py: Profile.auto_discretize"]}
{"id": "C24", "title": "Accelerated and pure-Python kernels agree", "statement": "The Numba kernels and their pure-Python counterparts (wave amplitudes, wave at location, strain transfer function, depth average) compute the same values for every input.", "quantifier": "every profile and frequency", "why_tests_cant": "Different masking conditions at special frequencies.", "anchors": ["src/pystrata/propagation.py: _calc_waves_numba", "src/pystrata/propagation.py: _calc_waves_python", "src/pystrata/propagation.py: _calc_strain_tf_numba", "src/pystrata/propagation.py: _calc_strain_tf_python", "src/pystrata/propagation.py: _wave_at_location_numba", "src/pystrata/propagation.py: _wave_at_location_python"]}
{"id": "C25", "title": "Outcrop-referenced transfer functions never divide by zero", "statement": "For any profile with positive shear moduli and densities and admissible damping, the up-going amplitude at the bottom half-space is non-zero at every non-zero angular frequency (above 1e-8 rad/s; the code treats smaller ones as zero), so transfer functions with an outcrop (or incoming) input at the half-space are always defined.", "quantifier": "every profile and every non-zero frequency", "why_tests_cant": "An existence-of-zero question over a continuum of frequencies and properties.", "anchors": ["src/pystrata/propagation.py: _calc_waves_python", "src/pystrata/propagation.py: LinearElasticCalculator.calc_accel_tf", "src/pystrata/site.py: Layer.comp_shear_mod"]}
{"id": "C26", "title": "Equivalent-linear iteration always stops", "statement": "An equivalent-linear run performs at most max_iterations property updates, then either stops normally or raises the strain-limit error; when it stops early the reported maximum error is below the tolerance.", "quantifier": "every profile, motion, tolerance, iteration limit", "why_tests_cant": "Termination for all inputs.", "anchors": ["src/pystrata/propagation.py: EquivalentLinearCalculator.__call__"]}
{"id": "C27", "title": "Convergence means the properties stopped changing", "statement": "When the equivalent-linear calculation stops because the error is below the tolerance, the relative change (in percent, in absolute value) of the shear modulus and of the damping of every layer in the last iteration is below the tolerance.", "quantifier": "every run that stops before max_iterations", "why_tests_cant": "Needs runs in which properties increase between iterations.", "anchors": ["src/pystrata/site.py: IterativeValue.relative_error", "src/pystrata/site.py: Layer.max_error", "src/pystrata/propagation.py: EquivalentLinearCalculator.__call__"]}
{"id": "C28", "title": "Strain limit is enforced", "statement": "With a strain limit set, no layer's strain ever exceeds the limit during an equivalent-linear run, and the strain-limit error is raised exactly when two consecutive unconverged iterations were limited.", "quantifier": "every run", "why_tests_cant": "All histories of limited/unlimited iterations.", "anchors": ["src/pystrata/propagation.py: EquivalentLinearCalculator.__call__"]}
{"id": "C29", "title": "Equivalent-linear analysis of a linear profile is the linear-elastic analysis", "statement": "If no layer's soil type has nonlinear curves, the equivalent-linear calculation leaves every layer's modulus and damping at the initial values, stops after one iteration, and produces the same wave amplitudes as the linear-elastic calculator.", "quantifier": "every all-linear profile and every motion", "why_tests_cant": "All motions and profiles.", "anchors": ["src/pystrata/propagation.py: EquivalentLinearCalculator.__call__", "src/pystrata/site.py: Layer.strain setter"]}
{"id": "C30", "title": "Strain transfer function is the depth derivative of displacement", "statement": "The strain transfer function times the input acceleration is the derivative with respect to depth of the displacement field (displacement being acceleration divided by -omega^2, in g units), and is zero at zero frequency; the stress transfer function is modulus times strain and vanishes at the free surface.", "quantifier": "every profile, location, frequency", "why_tests_cant": "Calculus statement over all inputs.", "anchors": ["src/pystrata/propagation.py: _calc_strain_tf_python", "src/pystrata/propagation.py: _calc_strain_tf_numba", "src/pystrata/propagation.py: LinearElasticCalculator.calc_stress_tf"]}
{"id": "C31", "title": "Toro layering fills the requested depth exactly", "statement": "The generated thicknesses are all positive and sum exactly to the requested total depth, each reported mid-depth is the centre of its layer, and generation stops once the random process has passed the total depth.", "quantifier": "every sequence of positive exponential increments, every total depth > 0 and model coefficients with c2 > -1", "why_tests_cant": "Random sequences are unbounded.", "anchors": ["src/pystrata/variation.py: ToroThicknessVariation.iter_thickness"]}
{"id": "C32", "title": "Toro-varied profile keeps total depth and takes soil from the layer at mid-depth", "statement": "The varied profile has the half-space at the same depth as the input profile, never fails to find a host layer, and each new layer's soil type, velocity and minimum damping are those of the input layer containing the new layer's mid-depth; the half-space keeps its soil type, velocity and minimum damping.", "quantifier": "every profile and random sequence", "why_tests_cant": "All random layerings against all interfaces.", "anchors": ["src/pystrata/variation.py: ToroThicknessVariation.__call__"]}
{"id": "C33", "title": "Velocity variation stays within the truncation and keeps the rest", "statement": "Every varied velocity is positive and within exp(+-limit*scaled sigma) of the input velocity, unless varying the bedrock is requested the half-space velocity is unchanged, and thicknesses, soil types, minimum damping and water table are unchanged; the input profile is not modified.", "quantifier": "every random draw and profile", "why_tests_cant": "All random draws.", "anchors": ["src/pystrata/variation.py: VelocityVariation.__call__"]}
{"id": "C34", "title": "Velocity covariance matrix is a covariance matrix", "statement": "The matrix given to the multivariate normal generator is symmetric with the layer variances on the diagonal, and is positive semi-definite.", "quantifier": "every profile and correlation model", "why_tests_cant": "Positive semi-definiteness quantifies over all vectors.", "anchors": ["src/pystrata/variation.py: VelocityVariation._calc_covar_matrix", "src/pystrata/variation.py: ToroVelocityVariation._calc_corr"]}
{"id": "C35", "title": "Toro inter-layer correlations are correlations", "statement": "For model parameters in [0, 1] and non-negative depths, every computed inter-layer correlation lies in [0, 1] and the bedrock correlation is 1; there is exactly one correlation per pair of adjacent layers.", "quantifier": "every profile with at least two layers and every parameter set in range", "why_tests_cant": "All profiles.", "anchors": ["src/pystrata/variation.py: ToroVelocityVariation._calc_corr"]}
{"id": "C36", "title": "Soil-type variation respects its limits and does not touch its input", "statement": "Every value of the varied modulus-reduction curve lies within limits_mod_reduc and every varied damping value within limits_damping; the number of points and the strains are unchanged; the seed soil type is not modified.", "quantifier": "every seed curve, random pair and limits", "why_tests_cant": "All random draws.", "anchors": ["src/pystrata/variation.py: SoilTypeVariation.__call__", "src/pystrata/variation.py: DarendeliVariation._get_varied", "src/pystrata/variation.py: SpidVariation._get_varied"]}
{"id": "C37", "title": "Layers sharing a soil type share its realisation", "statement": "In a varied profile two layers that had the same soil-type object have the same varied soil type, and iter_soil_types yields each distinct soil type once.", "quantifier": "every profile, with any sharing pattern", "why_tests_cant": "Sharing patterns of arbitrary profiles.", "anchors": ["src/pystrata/variation.py: SoilTypeVariation.vary_profile", "src/pystrata/site.py: Profile.iter_soil_types", "src/pystrata/site.py: SoilType.__hash__"]}
{"id": "C38", "title": "Fixed-percentile sampling cycles evenly", "statement": "With fixed percentiles, iter_varied_profiles rejects counts not divisible by the number of percentiles, and otherwise uses percentile i mod n for realisation i, so that each percentile is used exactly count/n times, in order, and the same index always gives the same soil realisation.", "quantifier": "every count, percentile list and profile", "why_tests_cant": "All counts.", "anchors": ["src/pystrata/variation.py: iter_varied_profiles", "src/pystrata/variation.py: SoilTypeVariation.__call__", "src/pystrata/variation.py: SoilTypeVariation.__init__"]}
{"id": "C39", "title": "Half-space depth variation puts the half-space at the sampled depth", "statement": "The profile returned by HalfSpaceDepthVariation has its half-space at exactly the sampled depth, whether shallower or deeper than the original, with all layers above taken from the original profile and every layer of positive thickness.", "quantifier": "every profile and sampled depth", "why_tests_cant": "All sampled depths relative to interfaces.", "anchors": ["src/pystrata/variation.py: HalfSpaceDepthVariation.__call__"]}
{"id": "C40", "title": "Half-space depth variation does not modify its input", "statement": "After drawing a varied profile the input profile still reports the same depths for all its layers.", "quantifier": "every profile and sampled depth", "why_tests_cant": "Aliasing of the half-space object.", "anchors": ["src/pystrata/variation.py: HalfSpaceDepthVariation.__call__", "src/pystrata/site.py: Profile.update_layers"]}
{"id": "C41", "title": "Logic-tree iteration is sound, complete and duplicate free", "statement": "Iterating over a logic tree yields, in node order, exactly the valid combinations of one positive-weight alternative per node, each combination of values once; every yielded branch satisfies all requires/excludes of its members.", "quantifier": "every logic tree", "why_tests_cant": "Unbounded trees.", "anchors": ["src/pystrata/logic_tree.py: LogicTree.__iter__", "src/pystrata/logic_tree.py: LogicTree.is_valid", "src/pystrata/logic_tree.py: Node.__iter__"]}
{"id": "C42", "title": "Logic-tree weights", "statement": "A branch's weight is the product of its members' weights; if no alternative is conditional and values within a node are distinct, the weights of all branches add up to the product over nodes of the node's weight sums (so to 1 when each node's weights add up to 1); with conditional alternatives the total is the sum over valid branches.", "quantifier": "every logic tree", "why_tests_cant": "Unbounded trees; duplicates change totals.", "anchors": ["src/pystrata/logic_tree.py: Branch.weight", "src/pystrata/logic_tree.py: LogicTree.__iter__"]}
{"id": "C43", "title": "Miller-Rice nodes are discrete probability distributions", "statement": "For every supported number of branches the node's weights are positive, symmetric about the median fraction 0.5, the fractions increase, and the weights add up to 1.", "quantifier": "every supported number of branches (2-10)", "why_tests_cant": "Table constants; exactness is a claim about all rows.", "anchors": ["src/pystrata/logic_tree.py: Node.from_miller_rice"]}
{"id": "C44", "title": "Requirement and exclusion semantics", "statement": "An alternative is valid for a branch exactly when all its required nodes have a matching value and not all its excluded nodes do; an alternative without conditions is always valid; a condition on a node missing from the tree raises KeyError.", "quantifier": "every alternative and branch", "why_tests_cant": "All combinations of conditions.", "anchors": ["src/pystrata/logic_tree.py: Realization.is_valid", "src/pystrata/logic_tree.py: Alternative.is_valid"]}
{"id": "C45", "title": "Outputs accumulate results column by column", "statement": "After any sequence of results of any lengths has been added to an output, the value table has one column per result and as many rows as the longest result, column j holding result j followed by missing values; references accumulate the same way.", "quantifier": "every sequence of result vectors", "why_tests_cant": "Unbounded sequences with varying lengths.", "anchors": ["src/pystrata/output.py: append_arrays", "src/pystrata/output.py: Output._add_values", "src/pystrata/output.py: Output._add_refs"]}
{"id": "C46", "title": "Output names and results stay in step", "statement": "After any sequence of output calls, successful or failing, the number of names equals the number of stored results, and default names are r1, r2, ... in order.", "quantifier": "every sequence of calls, including calls that raise", "why_tests_cant": "Failure points inside the call.", "anchors": ["src/pystrata/output.py: Output.__call__", "src/pystrata/output.py: ProfileBasedOutput.__call__", "src/pystrata/output.py: TimeSeriesOutput.__call__"]}
{"id": "C47", "title": "Resetting an output forgets everything", "statement": "After reset, an output behaves like a freshly constructed one: no names, no values, next default name r1; fixed references are kept and profile-dependent ones are dropped.", "quantifier": "every history before the reset", "why_tests_cant": "All histories.", "anchors": ["src/pystrata/output.py: Output.reset"]}
{"id": "C48", "title": "Fourier frequencies match Fourier amplitudes", "statement": "For a time-series motion the number of frequencies equals the number of Fourier amplitudes, the frequency step is 1/(n*dt), and without an explicit length n is the smallest power of two not below the number of samples.", "quantifier": "every record length and every explicit FFT length", "why_tests_cant": "All lengths, including odd ones and length 0/1.", "anchors": ["src/pystrata/motion.py: TimeSeriesMotion._calc_fourier_spectrum"]}
{"id": "C49", "title": "Single-degree-of-freedom oscillator response", "statement": "The oscillator transfer function is 1 at zero frequency, has squared magnitude 1/((1-r^2)^2 + (2*xi*r)^2) with r the frequency ratio, and is always defined for positive damping and oscillator frequency.", "quantifier": "every frequency, oscillator frequency > 0, damping > 0", "why_tests_cant": "Continuum.", "anchors": ["src/pystrata/motion.py: TimeSeriesMotion._calc_sdof_tf", "src/pystrata/motion.py: TimeSeriesMotion.calc_osc_accels"]}
{"id": "C50", "title": "Wang & Stokoe models never read a missing parameter", "statement": "For every soil group and every set of provided index properties containing the mean stress, each of the four models selects the highest level whose parameters are all provided (in the documented order) and evaluates without a missing-key error.", "quantifier": "every soil group, every subset of parameters, every values", "why_tests_cant": "2^8 subsets times real values.", "anchors": ["src/pystrata/site.py: WangSoilType.get_level", "src/pystrata/site.py: WangSoilType.calc_shear_mod", "src/pystrata/site.py: WangSoilType.calc_mod_reduc", "src/pystrata/site.py: WangSoilType.calc_damping_min", "src/pystrata/site.py: WangSoilType.calc_damping"]}
{"id": "C51", "title": "Wang & Stokoe damping with default minimum damping", "statement": "Computing damping without giving a minimum damping is the same as giving the model's own minimum damping for the same index properties.", "quantifier": "every soil group and parameter set", "why_tests_cant": "Only parameters converted from percent reveal the double conversion.", "anchors": ["src/pystrata/site.py: WangSoilType.calc_damping", "src/pystrata/site.py: to_decimal"]}
{"id": "C52", "title": "Modified-hyperbolic soil models are physically shaped", "statement": "For every modified-hyperbolic soil (Darendeli, Menq, Rollins) with positive scaling coefficient and reference strain and a curvature of at most 3/2, tabulated G/Gmax lies strictly between 0 and 1 and decreases with strain, is 1/2 at the reference strain, and the tabulated damping never decreases with strain and never falls below the minimum damping.", "quantifier": "every reference strain, curvature, strain table", "why_tests_cant": "Continuum of parameters.", "anchors": ["src/pystrata/site.py: ModifiedHyperbolicSoilType.__init__"]}
{"id": "C53", "title": "Two-parameter hyperbolic damping interpolates between its bounds", "statement": "The two-parameter model's damping lies between the minimum damping and the asymptotic damping d, and increases with strain when the minimum is below d; its G/Gmax lies in (0, 1] and decreases with strain.", "quantifier": "every coefficient set in range, stress and strain", "why_tests_cant": "Continuum of parameters.", "anchors": ["src/pystrata/site.py: TwoParamModifiedHyperbolicSoilType.__init__", "src/pystrata/site.py: WangSoilType.calc_damping", "src/pystrata/site.py: WangSoilType.calc_mod_reduc"]}
{"id": "C54", "title": "Fixed-width parsing reads back fixed-width writing", "statement": "Splitting any list of fields, each padded to its width, into lines at field boundaries and parsing it back yields the same fields, consumes exactly the lines written, and leaves later lines untouched.", "quantifier": "every list of fields/widths and every division into lines", "why_tests_cant": "Unbounded texts.", "anchors": ["src/pystrata/tools.py: parse_fixed_width"]}
{"id": "C55", "title": "SHAKE input: every option block is returned", "statement": "Reading a SHAKE input file processes every option block of the file.", "quantifier": "every file", "why_tests_cant": "All files; the last block is special.", "anchors": ["src/pystrata/tools.py: load_shake_inp"]}
{"id": "C56", "title": "Profile simplification preserves travel time and interfaces", "statement": "Merging similar layers of an NCM profile groups consecutive layers whose velocity is within the tolerance of the first of the group, keeps the total thickness and total travel time exactly, starts at the same depth, and each reported depth is a depth of the original.", "quantifier": "every profile and tolerance", "why_tests_cant": "Unbounded profiles.", "anchors": ["src/pystrata/generic.py: _simplify_profile"]}
{"id": "C57", "title": "Mean effective stress helper agrees with the profile", "statement": "calc_mean_eff_stress gives, at each layer midpoint, the mean of the vertical effective stress and twice k0 times it, and agrees with the mean stress reported by a profile with the same layers (up to the different constants used for the unit weight of water).", "quantifier": "every profile and water table", "why_tests_cant": "Unbounded profiles; two implementations.", "anchors": ["src/pystrata/tools.py: calc_mean_eff_stress", "src/pystrata/site.py: Layer.stress_mean"]}
{"id": "C58", "title": "Kamai et al. velocity profile", "statement": "The median velocity starts at a0 at the surface, increases strictly with depth, and is well defined for any non-negative depth; only the regions 'california' and 'japan' (lower case) are accepted.", "quantifier": "every vs30 > 0 and depth >= 0, every region string", "why_tests_cant": "Continuum and all strings.", "anchors": ["src/pystrata/generic.py: kea16_profile"]}
{"id": "C59", "title": "DataFrame round trip", "statement": "Converting a profile of linear layers to a DataFrame and back yields a profile with the same layers.", "quantifier": "every profile of linear layers", "why_tests_cant": "All profiles.", "anchors": ["src/pystrata/site.py: Profile.to_dataframe", "src/pystrata/site.py: Profile.from_dataframe"]}
{"id": "C60", "title": "USGS site class", "statement": "usgs_site_class returns A above 750, B in (360, 750], C in (180, 360], D at or below 180, so each vs30 has exactly one class and the class never worsens as vs30 grows.", "quantifier": "every vs30", "why_tests_cant": "Boundary behaviour.", "anchors": ["src/pystrata/variation.py: ToroVelocityVariation.usgs_site_class"]}
{"id": "C61", "title": "Published curve database is well formed", "statement": "Every published curve has as many values as strains, positive strictly increasing strains and values within the curve's limits; model names are unique; modulus reduction never increases and damping never decreases with strain; and every model offers both curves so that a soil type can be created from it.", "quantifier": "every entry of the shipped database", "why_tests_cant": "Finite data, but each clause is a claim about all entries.", "anchors": ["src/pystrata/data/published_curves.toml", "src/pystrata/site.py: NonlinearCurve.from_published", "src/pystrata/site.py: SoilType.from_published"]}
{"id": "C62", "title": "Arias-intensity build-up ends at the Arias intensity", "statement": "The Arias intensity time series is non-decreasing, and its last value equals the Arias intensity of the same response; each value is reported at the time up to which it is integrated.", "quantifier": "every acceleration series with at least two points", "why_tests_cant": "All series.", "anchors": ["src/pystrata/output.py: AriasIntensityTSOutput._modify_values", "src/pystrata/output.py: TimeSeriesOutput.__call__", "src/pystrata/motion.py: TimeSeriesMotion.calc_arias_intensity"]}
{"id": "C63", "title": "Deterministic correlated variates", "statement": "The pair returned for a percentile is always within the truncation limits, equal inputs give equal outputs, and the pair at the median percentile is (0, 0), so that the median soil realisation is the (clipped) seed curve.", "quantifier": "every correlation in [-1, 1], percentile and limit > 0", "why_tests_cant": "Continuum.", "anchors": ["src/pystrata/variation.py: TruncatedNorm.correlated_at_percentile", "src/pystrata/variation.py: DarendeliVariation._get_varied"]}
{"id": "C64", "title": "Rejection-sampled correlated variates are within limits", "statement": "A pair returned by the random correlated sampler is the first pair of the draws with both components strictly within the truncation limit.", "quantifier": "every sequence of draws", "why_tests_cant": "All random sequences.", "anchors": ["src/pystrata/variation.py: TruncatedNorm.correlated"]}
{"id": "C65", "title": "Mis-sized curves are rejected", "statement": "Using a soil type whose curve has different numbers of strains and values is reported as an error rather than silently treated as linear.", "quantifier": "every curve with mismatched lengths", "why_tests_cant": "Depends on exception-driven control flow.", "anchors": ["src/pystrata/site.py: NonlinearCurve._update", "src/pystrata/site.py: Layer.strain setter", "src/pystrata/site.py: Layer._compute_damping"]}
{"id": "C66", "title": "Profile-based outputs pair every value with a depth", "statement": "For every profile with at least two layers each profile-based output adds exactly as many values as depths, the maximum strain (and the stress ratio) of a layer stored at the middle of that layer, damping, modulus and velocities at its base.", "quantifier": "every profile", "why_tests_cant": "All profile lengths.", "anchors": ["src/pystrata/output.py: ProfileBasedOutput.__call__", "src/pystrata/output.py: MaxStrainProfile.__call__", "src/pystrata/output.py: DampingProfile.__call__", "src/pystrata/output.py: CyclicStressRatioProfile.__call__"]}
{"id": "C67", "title": "Time series round trip", "statement": "Applying no transfer function (or a unit one) to a time-series motion returns the acceleration record padded with zeros to the FFT length, so the peak equals the record's peak absolute value.", "quantifier": "every record and even FFT length not shorter than the record", "why_tests_cant": "All records.", "anchors": ["src/pystrata/motion.py: TimeSeriesMotion.calc_time_series", "src/pystrata/motion.py: TimeSeriesMotion.calc_peak"]}
{"id": "C68", "title": "Quarter-wavelength fit reports the attenuation it found", "statement": "After fitting with the site attenuation adjusted, the calculator's site attenuation is the optimiser's solution.", "quantifier": "every target and optimiser evaluation history", "why_tests_cant": "Depends on the order of objective evaluations.", "anchors": ["src/pystrata/propagation.py: QuarterWaveLenCalculator.fit"]}
{"id": "C69", "title": "nrattle damping conversion", "statement": "Each nrattle layer's damping is 1/(2Q) where the file gives either Q (values above 1) or 1/Q (values up to 1), and 0 for a zero entry; velocities and thicknesses are scaled from km to m and the half-space is appended last with zero thickness.", "quantifier": "every control-file content", "why_tests_cant": "All values.", "anchors": ["src/pystrata/tools.py: profile_from_nrattle_ctl"]}
{"id": "C70", "title": "Simplified Rayleigh velocity scales with velocity", "statement": "Multiplying every layer velocity by a factor c > 0 multiplies the simplified Rayleigh velocity by c; the time-averaged velocity scales likewise.", "quantifier": "every profile and factor", "why_tests_cant": "Metamorphic relation over all profiles.", "anchors": ["src/pystrata/site.py: Profile.simplified_rayliegh_vel", "src/pystrata/site.py: Profile.time_average_vel"]}
{"id": "C71", "title": "Equivalent-linear results are strain-compatible", "statement": "After an equivalent-linear run of at least one iteration every layer above the half-space reports a maximum strain, an effective strain equal to the strain ratio times that maximum (cut at the strain limit), and a shear modulus and damping that are the values of its curves at exactly that effective strain; soil type, thickness, initial velocity and minimum damping are unchanged.", "quantifier": "every profile, motion and parameters", "why_tests_cant": "The reported strain and the reported properties come from different statements of the loop; agreement must hold for every run, converged or not.", "anchors": ["src/pystrata/propagation.py: EquivalentLinearCalculator.__call__", "src/pystrata/site.py: Layer.strain setter"]}
{"id": "C72", "title": "Iterating over an output pairs names with their own results", "statement": "Iterating over the results of an output yields, for every stored result in the order it was added, its name with its own references and values, padded with missing entries to the longest.", "quantifier": "every sequence of successful output calls", "why_tests_cant": "The generator indexes two separately grown tables by the position in a third list.", "anchors": ["src/pystrata/output.py: Output.iter_results"]}
{"id": "C73", "title": "Stored profiles read back the layer at a depth", "statement": "Interpolating a stored profile output at a depth inside a layer returns the value of that layer.", "quantifier": "every profile, depth and layer", "why_tests_cant": "Values are stored at layer tops, shifted by one, and interpolated with the next point; whether that is the layer at the depth must hold for every depth.", "anchors": ["src/pystrata/output.py: ProfileBasedOutput.calc_stats", "src/pystrata/output.py: MaxStrainProfile.__call__"]}
{"id": "C74", "title": "Output statistics", "statement": "At every reference the statistics are the geometric mean and the log standard deviation of the available values: the mean lies between any bounds on the values, its n-th power is their product, missing entries do not matter, and the deviation is zero exactly when all values are equal.", "quantifier": "every row of positive values with at least one available", "why_tests_cant": "All value tables.", "anchors": ["src/pystrata/output.py: Output.calc_stats"]}
{"id": "C75", "title": "Spectrum of a response", "statement": "The time series computed with a transfer function has, at each motion frequency, the Fourier transform of the padded record times the transfer function; at zero and at the highest frequency only the real part is kept.", "quantifier": "every record, even FFT length, and transfer function at the motion frequencies", "why_tests_cant": "All records and all transfer functions; the discrete convolution identity is a statement about every length.", "anchors": ["src/pystrata/motion.py: TimeSeriesMotion.calc_time_series"]}
{"id": "C76", "title": "Exponent of the ba23 method", "statement": "With method='ba23' the exponent applied to the impedance ratio is a finite non-negative number at every positive frequency, so that the amplification is defined.", "quantifier": "every site and positive frequency", "why_tests_cant": "The formula takes a fractional power of an expression whose sign depends on the frequency; sampled frequencies miss the interval where it is negative.", "anchors": ["src/pystrata/propagation.py: QuarterWaveLenCalculator.correction_ba23", "src/pystrata/propagation.py: QuarterWaveLenCalculator._calc_amp"]}
{"id": "C77", "title": "Iterating over varied profiles", "statement": "iter_varied_profiles yields the requested number of profiles and leaves the seed profile and all its layers unchanged; no layer object is shared between two realisations or between a realisation and the seed.", "quantifier": "every seed profile, combination of variations and random draws", "why_tests_cant": "Sharing and in-place updates across realisations depend on which variations are chained; a test sees one chain.", "anchors": ["src/pystrata/variation.py: iter_varied_profiles"]}
{"id": "C78", "title": "A varied layer starts from the damping of its varied soil type", "statement": "After a soil type variation the initial damping of every varied layer is the minimum damping of its new soil type.", "quantifier": "every profile, soil type variation and random draw", "why_tests_cant": "The draws are random, so that the value to compare with is not known beforehand.", "anchors": ["src/pystrata/variation.py: SoilTypeVariation.vary_profile", "src/pystrata/site.py: Layer.__init__"]}
{"id": "C79", "title": "Truncated normal variates", "statement": "The variates of TruncatedNorm lie within plus or minus the limit and have unit variance.", "quantifier": "every positive limit and every draw", "why_tests_cant": "The variance is an integral over the distribution, and the range a statement about all draws.", "anchors": ["src/pystrata/variation.py: TruncatedNorm.__call__"]}
{"id": "C80", "title": "Generic depth-dependent model honours its arguments", "statement": "The standard deviations passed to DepthDependToroVelVariation.generic_model are the ones of the model it returns.", "quantifier": "every site class and list of standard deviations", "why_tests_cant": "All combinations of given and omitted arguments.", "anchors": ["src/pystrata/variation.py: DepthDependToroVelVariation.generic_model"]}
{"id": "C81", "title": "Locality of the Toro correlation", "statement": "The correlation of two adjacent layers in the Toro model depends on the depths and the distance of these two layers only.", "quantifier": "every parameter set and profile", "why_tests_cant": "Needs pairs of profiles that differ below the two layers; the relation is over all of them.", "anchors": ["src/pystrata/variation.py: ToroVelocityVariation._calc_corr"]}
{"id": "C82", "title": "Depth-dependent standard deviation", "statement": "The standard deviation of a layer is the one given for its soil type name, the last matching name if several match, and otherwise the interpolation at the mid-depth of the layer.", "quantifier": "every layer, depth table and name table", "why_tests_cant": "All tables and names, with overlapping name matches.", "anchors": ["src/pystrata/variation.py: DepthDependToroVelVariation._calc_ln_std"]}
{"id": "C83", "title": "Unknown Wang soil group", "statement": "An unknown soil group is reported as ValueError by the constructor and by the four class methods.", "quantifier": "every string that is not one of the three groups", "why_tests_cant": "All strings; which of two checks comes first is a statement about all of them.", "anchors": ["src/pystrata/site.py: WangSoilType.__init__", "src/pystrata/site.py: WangSoilType.get_level", "src/pystrata/site.py: WangSoilType.calc_shear_mod"]}
{"id": "C84", "title": "Wang & Stokoe values are real numbers", "statement": "For index properties in their physical range the shear modulus and the minimum damping are positive real numbers and the damping curve is real.", "quantifier": "every soil group, every set of index properties in range", "why_tests_cant": "The formulas take fractional powers of differences of index properties; the combinations with a negative base lie between sampled soils.", "anchors": ["src/pystrata/site.py: WangSoilType.calc_shear_mod", "src/pystrata/site.py: WangSoilType.calc_damping_min", "src/pystrata/site.py: WangSoilType.calc_damping"]}
{"id": "C85", "title": "Darendeli minimum damping", "statement": "The minimum damping of a Darendeli soil is positive for every excitation frequency.", "quantifier": "every plasticity index, OCR, stress and frequency", "why_tests_cant": "The sign changes at an extremely low frequency.", "anchors": ["src/pystrata/site.py: DarendeliSoilType._calc_damping_min"]}
{"id": "C86", "title": "Alemu curves are physically shaped", "statement": "The G/Gmax values of an Alemu soil lie in (0, 1], are 1 at zero strain and decrease with strain; the damping starts at the minimum damping, which is positive, and increases with strain.", "quantifier": "every plasticity index, OCR, stress, fines content and strain table", "why_tests_cant": "Continuum of parameters and strains.", "anchors": ["src/pystrata/site.py: AlemuEtAlSoilType.__init__"]}
{"id": "C87", "title": "Wang constructor", "statement": "The curves of a Wang soil type are those of the class methods for all given properties, with the given minimum damping or the one of the model, although the constructor keeps only the properties its models need; the mean stress is the only required property, and ValueError is raised exactly without it.", "quantifier": "every known soil group, set of index properties, minimum damping and strain table", "why_tests_cant": "The set of properties kept depends on whether a minimum damping was given; all subsets of eight properties.", "anchors": ["src/pystrata/site.py: WangSoilType.__init__", "src/pystrata/site.py: WangSoilType.params"]}
{"id": "C88", "title": "Masing damping is the loop area", "statement": "The closed-form damping of the modified hyperbolic model with unit curvature is the dissipated over stored energy of a Masing loop of the hyperbolic backbone.", "quantifier": "every reference strain and strain amplitude", "why_tests_cant": "An integral identity.", "anchors": ["src/pystrata/site.py: ModifiedHyperbolicSoilType.__init__"]}
{"id": "C89", "title": "Excluding layers by a list of names", "statement": "With a list of names, adjust_damping_values leaves out exactly the layers whose soil type name is a member of the list.", "quantifier": "every list of names and every profile", "why_tests_cant": "Names that contain each other appear only by chance in a test.", "anchors": ["src/pystrata/tools.py: adjust_damping_values"]}
{"id": "C90", "title": "A uniform profile has no scattering", "statement": "calc_atten_scatter reports no scattering attenuation for a profile without impedance contrasts.", "quantifier": "every thickness, velocity, unit weight and damping up to 0.49, every choice of frequencies", "why_tests_cant": "A continuum of profiles; the deviation is of third order in the damping and hides in a test tolerance.", "anchors": ["src/pystrata/tools.py: calc_atten_scatter"]}
{"id": "C91", "title": "Missing fields at the end of a line", "statement": "A fixed-width line that ends before its last field gives a missing value and leaves the next line to the next record.", "quantifier": "every line and list of fields", "why_tests_cant": "Depends on the trailing blanks of a file, which editors remove.", "anchors": ["src/pystrata/tools.py: parse_fixed_width", "src/pystrata/tools.py: to_float"]}
{"id": "C92", "title": "AT2 files are read completely", "statement": "load_at2_file returns the time step of the fourth line and all values of the following lines in order, scaled.", "quantifier": "every AT2 file and every division of the values into lines", "why_tests_cant": "All layouts of a text file.", "anchors": ["src/pystrata/motion.py: TimeSeriesMotion.load_at2_file"]}
{"id": "C93", "title": "SMC files are read completely", "statement": "load_smc_file returns one over the sampling rate and exactly the stated number of values in order, scaled, skipping the stated number of comment lines; files without corrected accelerations are rejected.", "quantifier": "every SMC file", "why_tests_cant": "All layouts of a text file.", "anchors": ["src/pystrata/motion.py: TimeSeriesMotion.load_smc_file"]}
{"id": "C94", "title": "nrattle control files are read completely", "statement": "read_nrattle_ctl returns every layer line and the half-space line that follows.", "quantifier": "every control file", "why_tests_cant": "How the end of the layers is recognised depends on how the numbers are written.", "anchors": ["src/pystrata/tools.py: read_nrattle_ctl"]}
{"id": "C95", "title": "Every documented SHAKE option can be read", "statement": "A SHAKE input file with any of the options 1, 2, 3, 4, 5, 6, 7 and 9 of the table of parsers is read without an exception.", "quantifier": "every file", "why_tests_cant": "All sequences of option blocks.", "anchors": ["src/pystrata/tools.py: load_shake_inp"]}
{"id": "C96", "title": "English units are converted", "statement": "A SHAKE input file that states English units gives a profile in metric units.", "quantifier": "every file", "why_tests_cant": "All files; the units are compared with a line read from the file.", "anchors": ["src/pystrata/tools.py: load_shake_inp", "src/pystrata/tools.py: _parse_soil_profile"]}
{"id": "C97", "title": "SHAKE curves are read back", "statement": "Option 1 of a SHAKE input file gives every soil type number its own modulus reduction and damping curve, with name, strains and values as written.", "quantifier": "every number of curves, points per curve and division into lines", "why_tests_cant": "All layouts of a text file.", "anchors": ["src/pystrata/tools.py: _parse_curves"]}
{"id": "C98", "title": "Documented region names of the Kamai et al. profile", "statement": "The region names given in the documentation and in the error message, 'California' and 'Japan', are accepted.", "quantifier": "every list of depths and vs30", "why_tests_cant": "The tests use the names the code compares with.", "anchors": ["src/pystrata/generic.py: kea16_profile"]}
{"id": "C99", "title": "Loaded NCM profile is consistent", "statement": "A loaded profile has a mean effective stress and a thickness for every row, the thicknesses add up to the depth of the half-space whose own thickness is zero, with or without simplification, and columns of different lengths raise ValueError.", "quantifier": "every depth vector, velocities, densities, water table depth and tolerance", "why_tests_cant": "Unbounded profiles.", "anchors": ["src/pystrata/generic.py: load_ncm_profile", "src/pystrata/generic.py: _simplify_profile", "src/pystrata/tools.py: calc_mean_eff_stress"]}
{"id": "C100", "title": "Densities of an NCM profile are kept", "statement": "A soil type with the unit weight of a loaded row has the density given in the file.", "quantifier": "every profile and row", "why_tests_cant": "A relation between two modules for all values.", "anchors": ["src/pystrata/generic.py: load_ncm_profile", "src/pystrata/site.py: SoilType.density"]}
{"id": "C101", "title": "Shape of the curves for organic soils", "statement": "KishidaSoilType tabulates a modulus reduction that is one at the first strain, stays positive and decreases with strain, and a damping that is positive and increases with strain; without strains it raises IndexError.", "quantifier": "every vertical effective stress between 0.001 and 1000 kPa, organic content not below zero, positive laboratory ratio and strains of which the first is the smallest", "why_tests_cant": "Four real parameters and a list of unbounded length; the monotonicity is that of a quotient of logarithms.", "anchors": ["src/pystrata/site.py: KishidaSoilType.__init__", "src/pystrata/site.py: KishidaSoilType._calc_mod_reduc", "src/pystrata/site.py: KishidaSoilType._calc_damping"]}
{"id": "C102", "title": "Organic soils: unit weight and laboratory ratio", "statement": "The unit weight KishidaSoilType computes is positive, increases with the vertical effective stress and decreases with the organic content, and the laboratory consolidation ratio changes neither curve.", "quantifier": "every two sets of positive parameters and every strain table", "why_tests_cant": "A relation between any two parameter sets.", "anchors": ["src/pystrata/site.py: KishidaSoilType._calc_unit_wt", "src/pystrata/site.py: KishidaSoilType._calc_mod_reduc"]}
{"id": "C103", "title": "Documented default strains of KishidaSoilType", "statement": "Without strains the curves of KishidaSoilType cover the documented range, 10**-6 to 10**0.5.", "quantifier": "every parameter set", "why_tests_cant": "The tests pass strains.", "anchors": ["src/pystrata/site.py: KishidaSoilType.__init__"]}
{"id": "C104", "title": "Strain spectrum of the frequency-dependent calculator", "statement": "The strain spectrum of a layer lies between zero and the effective strain; with ko it never rises from low to high frequency and starts at the effective strain; with zr15 it is proportional to the strain Fourier amplitudes and attains the effective strain at the largest; with ka02 and non-negative fitted coefficients it never rises with frequency and is the effective strain at zero frequency.", "quantifier": "every frequency vector, non-negative amplitudes, effective strain, smoother and least-squares result", "why_tests_cant": "Spectra of unbounded length and arbitrary solver results; a test fixes one motion.", "anchors": ["src/pystrata/propagation.py: FrequencyDependentEqlCalculator._calc_strain"]}
{"id": "C105", "title": "End of a frequency-dependent run", "statement": "The passes number at most max_iterations; the run stops at the first pass whose error is below the tolerance and no later; a strain limit holds for the strains of every frequency in every pass; RuntimeError is raised exactly when two consecutive passes are limited without converging, in the calculator or in its estimate, and nothing is done after that.", "quantifier": "every calculator, motion, input location, profile and reset flag", "why_tests_cant": "A trace property over loops of unbounded length.", "anchors": ["src/pystrata/propagation.py: EquivalentLinearCalculator.__call__", "src/pystrata/propagation.py: FrequencyDependentEqlCalculator._calc_strain"]}
{"id": "C106", "title": "Strain compatibility at every frequency", "statement": "After a frequency-dependent run the modulus and damping of each layer above the half-space are, at every frequency, those its soil type asks for at the strain of that frequency; those strains and the maximum strain come from the reported waves, and when the run converged no positive value fell by the tolerance or more in the last pass.", "quantifier": "every run that ends normally after at least one pass", "why_tests_cant": "Quantifies over frequencies, layers and runs.", "anchors": ["src/pystrata/propagation.py: FrequencyDependentEqlCalculator._calc_strain", "src/pystrata/site.py: Layer.strain", "src/pystrata/site.py: IterativeValue.relative_error"]}
{"id": "C107", "title": "Unknown strain spectrum methods are rejected", "statement": "A method other than ka02, zr15 and ko: with a bandwidth raises an exception.", "quantifier": "every method name", "why_tests_cant": "All strings.", "anchors": ["src/pystrata/propagation.py: FrequencyDependentEqlCalculator.__init__", "src/pystrata/propagation.py: FrequencyDependentEqlCalculator._calc_strain"]}
{"id": "C108", "title": "max_iterations and tolerance govern every iteration", "statement": "A frequency-dependent run performs at most max_iterations iterations, including those of the strain estimate, which uses the given tolerance.", "quantifier": "every calculator, motion and profile", "why_tests_cant": "Requires counting the iterations of a nested calculator.", "anchors": ["src/pystrata/propagation.py: FrequencyDependentEqlCalculator._estimate_strains"]}
{"id": "C109", "title": "Linear soils in the frequency-dependent calculator", "statement": "When no soil type is nonlinear the waves of a frequency-dependent run are those of the linear-elastic calculator and every layer keeps its initial modulus and minimum damping.", "quantifier": "every profile of linear soil types, motion, input location, method, tolerance and number of iterations for which the run ends normally", "why_tests_cant": "Equality of two calculators for all inputs.", "anchors": ["src/pystrata/propagation.py: FrequencyDependentEqlCalculator._estimate_strains", "src/pystrata/propagation.py: LinearElasticCalculator.__call__"]}
{"id": "C110", "title": "Damping profile after a frequency-dependent run", "statement": "DampingProfile stores one value per depth after a frequency-dependent run and accepts any number of runs.", "quantifier": "every run that ends normally", "why_tests_cant": "A relation between a calculator and an output class for all runs.", "anchors": ["src/pystrata/output.py: DampingProfile.__call__", "src/pystrata/output.py: append_arrays", "src/pystrata/propagation.py: FrequencyDependentEqlCalculator._calc_strain"]}
{"id": "C111", "title": "Input motion reproduced at the input location", "statement": "After a run on sound layers with a record of even FFT length, AccelerationTSOutput at the input location is the record cropped or padded to the FFT length, the response spectrum there is the record's, and the transfer function of a location to itself is one; the outputs at all other locations are finite and have one entry per sample or requested frequency. Equivalent-linear runs without strain limit on physical profiles always end normally.", "quantifier": "every record, time step, even FFT length, sound profile and input location (with damping when the field is within)", "why_tests_cant": "Quantifies over spectra of unbounded length and over all profiles.", "anchors": ["src/pystrata/output.py: AccelerationTSOutput.__call__", "src/pystrata/output.py: ResponseSpectrumOutput.__call__", "src/pystrata/output.py: AccelTransferFunctionOutput.__call__", "src/pystrata/propagation.py: LinearElasticCalculator.calc_accel_tf", "src/pystrata/motion.py: TimeSeriesMotion.calc_time_series"]}
{"id": "C112", "title": "Strain, stress and cyclic stress ratio agree", "statement": "After an equivalent-linear run the strain_max of each layer is the peak of the StrainTSOutput series at its mid-height, and the CyclicStressRatioProfile entry is 0.65 times the peak of the undamped normalised StressTSOutput series there.", "quantifier": "every equivalent-linear run that ends normally on a time-series motion", "why_tests_cant": "Relates three output classes and the calculator for all runs.", "anchors": ["src/pystrata/output.py: StrainTSOutput.__call__", "src/pystrata/output.py: StressTSOutput.__call__", "src/pystrata/output.py: CyclicStressRatioProfile.__call__", "src/pystrata/propagation.py: EquivalentLinearCalculator._calc_strain"]}
{"id": "C113", "title": "Laws of response spectrum ratios", "statement": "The ratio of a location to itself is one, the ratios in both directions are reciprocal, ratios over an intermediate location multiply, and scaling the record by a non-zero factor changes no ratio; with a record whose samples do not sum to zero and positive oscillator damping all the spectra are positive.", "quantifier": "every calculator state, damping, frequency list and locations with finite non-zero spectra", "why_tests_cant": "Algebraic laws over all locations and records.", "anchors": ["src/pystrata/output.py: ResponseSpectrumRatioOutput.__call__", "src/pystrata/output.py: ResponseSpectrumOutput.__call__"]}
{"id": "C114", "title": "Spectra are read off the motion frequencies", "statement": "Without smoothing, the transfer-function and Fourier-amplitude outputs at a requested frequency equal the value at that motion frequency, lie on the chord between neighbouring ones, and keep the end value outside; the Fourier amplitudes at the motion frequencies are dt times the Fourier sum of the record times the size of the transfer function.", "quantifier": "every record, state, location and list of requested frequencies", "why_tests_cant": "Continuum of requested frequencies.", "anchors": ["src/pystrata/output.py: FourierAmplitudeSpectrumOutput.__call__", "src/pystrata/output.py: AccelTransferFunctionOutput.__call__"]}
{"id": "C115", "title": "Superposition of records", "statement": "With the waves held fixed, acceleration, strain and stress series of a linear combination of two records are the same combination of their series, and scaling a record scales response and Fourier spectra by the absolute factor.", "quantifier": "all records of equal length, all real factors, all locations", "why_tests_cant": "Linearity over all inputs.", "anchors": ["src/pystrata/output.py: AccelerationTSOutput.__call__", "src/pystrata/output.py: StrainTSOutput.__call__", "src/pystrata/output.py: StressTSOutput.__call__", "src/pystrata/motion.py: TimeSeriesMotion.calc_time_series"]}
{"id": "C116", "title": "Normalised stress is available wherever stress is", "statement": "Wherever StressTSOutput gives a series, the normalised output gives that series divided by the effective vertical stress.", "quantifier": "every location in every profile", "why_tests_cant": "Depends on the location within the profile.", "anchors": ["src/pystrata/output.py: StressTSOutput.__call__", "src/pystrata/site.py: Location.stress_vert", "src/pystrata/site.py: Layer.stress_vert"]}
{"id": "C117", "title": "Maximum accelerations are peaks of series", "statement": "MaxAccelProfile stores one value per layer: the peak of the acceleration series at the top of that layer.", "quantifier": "every calculator state whose profile has positive thicknesses and cumulative depths", "why_tests_cant": "All profiles and records.", "anchors": ["src/pystrata/output.py: MaxAccelProfile.__call__", "src/pystrata/site.py: Profile.lookup_depth"]}
{"id": "C118", "title": "A run changes only the strain-dependent properties", "statement": "An equivalent-linear run, in every pass and at its end, leaves the soil type, thickness, depth, vertical stress, initial velocity and minimum damping of every layer as they were, and the number and order of the layers.", "quantifier": "every calculator, motion, input location, profile and reset flag", "why_tests_cant": "A frame property over loops of unbounded length.", "anchors": ["src/pystrata/propagation.py: EquivalentLinearCalculator.__call__", "src/pystrata/site.py: Layer.strain setter", "src/pystrata/site.py: Layer.reset"]}
{"id": "C119", "title": "Fixed percentiles respect the sign of the correlation", "statement": "With a negative correlation between modulus reduction and damping, a fixed percentile above the median gives a damping deviation of the opposite sign, and with a positive correlation of the same sign.", "quantifier": "every percentile, every correlation", "why_tests_cant": "A sign condition on a continuum of correlations; the tests only check a value or two.", "anchors": ["src/pystrata/variation.py: TruncatedNorm.correlated_at_percentile"]}
{"id": "C120", "title": "Fixed percentiles order the realisations", "statement": "The realisation of a higher percentile has a higher or equal modulus reduction at every strain and, for a negative correlation, a lower or equal damping.", "quantifier": "every pair of percentiles, every soil type, both variation models", "why_tests_cant": "Quantifies over pairs of percentiles and all curves.", "anchors": ["src/pystrata/variation.py: SoilTypeVariation.__call__", "src/pystrata/variation.py: TruncatedNorm.correlated_at_percentile"]}
{"id": "C121", "title": "Spread of varied curves", "statement": "The Darendeli model deviates the modulus reduction by z times a standard deviation that is smallest at 0 and 1 and largest at one half, and the damping percentage by z times exp(-5) + exp(-0.25) times the root of the percentage; the SPID model multiplies the odds of the modulus reduction by exp(2 z s) and shifts the logarithm of the damping by z s.", "quantifier": "every value of the seed curve and every deviate", "why_tests_cant": "Continuum of values and deviates.", "anchors": ["src/pystrata/variation.py: DarendeliVariation", "src/pystrata/variation.py: SpidVariation"]}
{"id": "C122", "title": "Amplification is bounded by impedance contrasts", "statement": "When all layers have the same damping ratio, the ratio of the surface motion to the outcrop motion at any layer is at most the product of the impedance increases between them; without damping it is at least the product of the impedance decreases, and for a profile whose impedance never decreases with depth it lies between 1 and the ratio of the impedances.", "quantifier": "every number of layers, every thickness, velocity and density, every frequency above the threshold, every depth in the layer", "why_tests_cant": "A uniform bound over all sites and frequencies.", "anchors": ["src/pystrata/propagation.py: my_calc_waves", "src/pystrata/propagation.py: AbstractCalculator.calc_accel_tf"]}
{"id": "C123", "title": "One layer on a half-space has the textbook transfer functions", "statement": "For one layer on a half-space the outcrop-to-surface transfer function is 1 / (cos kH + i alpha sin kH) with the complex wave number and impedance ratio, and the base-to-surface one is 1 / cos kH; without damping the quarter-wavelength frequency amplifies the outcrop motion by the impedance ratio, and the base-to-surface function has no value there.", "quantifier": "every layer and half-space with non-zero velocities, every frequency above the threshold", "why_tests_cant": "A closed form over a continuum of sites and frequencies, including the poles.", "anchors": ["src/pystrata/propagation.py: my_calc_waves", "src/pystrata/propagation.py: AbstractCalculator.calc_accel_tf"]}
{"id": "C124", "title": "A run does not depend on earlier runs", "statement": "A run that resets the layers depends only on soil type, thickness, depth, vertical stress, initial velocity and minimum damping of the layers: after any run of any calculator on the same profile, passes and results are those of a run on the fresh profile.", "quantifier": "every history of runs, every calculator, motion and input location", "why_tests_cant": "Hidden state left in layers after any earlier run; tests use a fresh profile or one history.", "anchors": ["src/pystrata/propagation.py: EquivalentLinearCalculator.__call__", "src/pystrata/propagation.py: FrequencyDependentEqlCalculator", "src/pystrata/propagation.py: LinearElasticCalculator.__call__", "src/pystrata/site.py: Layer.reset"]}
{"id": "C125", "title": "An exhausted run can be continued", "statement": "If a run used all its iterations and no strain was limited in its last pass, calling the calculator again with reset_layers=False for n more iterations gives the passes and the result of one run with both numbers of iterations together.", "quantifier": "every calculator, motion, profile and split of the iterations", "why_tests_cant": "Relates two executions of unbounded length.", "anchors": ["src/pystrata/propagation.py: EquivalentLinearCalculator.__call__"]}
{"id": "C126", "title": "Numbers of files are read as the numbers they denote", "statement": "A decimal number with optional sign, point and exponent, surrounded by white space, is read as the number it denotes, a whole number as its integer; an integer field with a point or exponent raises ValueError, the only exception of the readers. Hence AT2 files and fixed-width files give exactly the numbers written in them.", "quantifier": "every numeral of any length, every padding, every file of any number of lines and words", "why_tests_cant": "Numerals, paddings and files are unboundedly many.", "anchors": ["src/pystrata/tools.py: parse_fixed_width", "src/pystrata/tools.py: split_line", "src/pystrata/motion.py: TimeSeriesMotion.load_at2_file", "src/pystrata/motion.py: TimeSeriesMotion.load_smc_file"]}
{"id": "C127", "title": "Curves preserve the order and closeness of their tables", "statement": "If the tabulated values of one nonlinear property are at most those of another with the same strains and limits, its interpolated values are at most those of the other at every strain; if the tables differ by at most e, so do the curves.", "quantifier": "every table, sorted or not, every strain inside and outside the tabulated range", "why_tests_cant": "Quantifies over a continuum of strains and tables.", "anchors": ["src/pystrata/site.py: NonlinearProperty.__call__"]}
{"id": "C128", "title": "Soil models move in the published direction", "statement": "Darendeli: a higher plasticity index, overconsolidation ratio or stress never lowers the modulus reduction; more cycles or a lower frequency never raise the damping; the minimum damping grows with plasticity and frequency and falls with overconsolidation and stress. Menq: a lower coefficient of uniformity never lowers the modulus reduction; more cycles or larger grains never raise the damping. Rollins: a lower coefficient of uniformity or a higher stress never lowers the modulus reduction, more cycles never raise the damping.", "quantifier": "every pair of parameter sets in the stated order (Darendeli frequencies from 1 Hz; Menq uniformity from 1 and stresses from exp(-8) atm), every strain, every list of strains", "why_tests_cant": "A relation between two parameter sets over a continuum of parameters and strains.", "anchors": ["src/pystrata/site.py: DarendeliSoilType", "src/pystrata/site.py: MenqSoilType", "src/pystrata/site.py: RollinsEtAlSoilType"]}
{"id": "C129", "title": "SHAKE profiles are read back", "statement": "Option 2 of a SHAKE input file gives one layer per line with the thickness, unit weight and velocity written there (missing where blank) and the curves assigned to its soil type number, and the water table at the top of the stated layer; a soil type number without curves raises KeyError, a water table layer beyond the profile IndexError. A file with curves, profile and a last block gives both.", "quantifier": "every number of layers, every padding and numeral, every assignment of curves", "why_tests_cant": "Files of unbounded length; the tests contain no SHAKE file.", "anchors": ["src/pystrata/tools.py: _parse_soil_profile", "src/pystrata/tools.py: load_shake_inp"]}
{"id": "C130", "title": "Logic trees are read back from JSON", "statement": "A logic tree written as a JSON list of nodes with their alternatives, weights and conditions is read back as the same tree, with default weight and no conditions where they are left out, and iterates over the same branches.", "quantifier": "every tree, every order of the entries, every choice of left-out defaults", "why_tests_cant": "Trees and their JSON texts are unboundedly many; the tests read one file.", "anchors": ["src/pystrata/logic_tree.py: LogicTree.from_json", "src/pystrata/logic_tree.py: LogicTree.from_list", "src/pystrata/logic_tree.py: Node.from_dict"]}
{"id": "C131", "title": "Malformed trees are rejected", "statement": "Reading a list fails exactly when an item is not a node, with the exception of the first such item: KeyError for a missing name or list of alternatives, TypeError for items or alternatives of the wrong kind, unknown keys or missing values.", "quantifier": "every JSON list", "why_tests_cant": "All ways in which a nested document can be malformed, and their order.", "anchors": ["src/pystrata/logic_tree.py: LogicTree.from_list", "src/pystrata/logic_tree.py: Node.from_dict", "src/pystrata/logic_tree.py: Alternative"]}
{"id": "C132", "title": "Lookup by value and name finds what branches show", "statement": "by_value returns the first alternative with the value, None if there is none, and raises TypeError only where a float meets a non-number; the value a branch shows for a node is found again in the node of that name, with the same value.", "quantifier": "every node, every value, every branch of every tree", "why_tests_cant": "Quantifies over all nodes and values including close floats.", "anchors": ["src/pystrata/logic_tree.py: Node.by_value", "src/pystrata/logic_tree.py: LogicTree.__getitem__"]}
{"id": "C133", "title": "Intensity measures scale with the motion", "statement": "Multiplying the accelerations by c multiplies pga, pgv and cav by |c| and the Arias intensity by c squared, with or without a transfer function.", "quantifier": "every record, every factor including negative and zero, every transfer function, every FFT length", "why_tests_cant": "Relation between two motions over a continuum of factors and records.", "anchors": ["src/pystrata/motion.py: TimeSeriesMotion.calc_peak", "src/pystrata/motion.py: TimeSeriesMotion.calc_pgv", "src/pystrata/motion.py: TimeSeriesMotion.calc_arias_intensity", "src/pystrata/motion.py: TimeSeriesMotion.calc_cav"]}
{"id": "C134", "title": "A delay of the record changes no peak", "statement": "Zeros in front of the record, within the same even FFT length, turn the computed response cyclically by as many steps, so calc_peak, calc_pgv and calc_osc_accels give the same values or exceptions, with any transfer function.", "quantifier": "every record, every number of zeros that fits, every transfer function, every oscillator", "why_tests_cant": "Relation between two runs of the Fourier transforms for all lengths.", "anchors": ["src/pystrata/motion.py: TimeSeriesMotion.calc_time_series", "src/pystrata/motion.py: TimeSeriesMotion.calc_peak", "src/pystrata/motion.py: TimeSeriesMotion.calc_osc_accels"]}
{"id": "C135", "title": "The peak ground velocity is the peak of the integrated record", "statement": "calc_pgv is the largest magnitude in cm/s, at the sampled times, of the velocity without mean whose derivative goes through the record less its mean; it vanishes only for a constant record.", "quantifier": "every record, time step and even FFT length with a duration below 6e8 s", "why_tests_cant": "Integration of a band-limited function for all records; no closed-form expected values exist.", "anchors": ["src/pystrata/motion.py: TimeSeriesMotion.calc_pgv"]}
{"id": "C136", "title": "Fourier amplitudes carry the energy of the record", "statement": "The time step times the sum of the squared samples is the frequency step times the sum of the squared Fourier amplitudes over positive and negative frequencies; the Arias intensity is pi g / 2 times this energy less half of the end samples.", "quantifier": "every record and every even FFT length", "why_tests_cant": "Identity over all records and lengths.", "anchors": ["src/pystrata/motion.py: TimeSeriesMotion.fourier_amps", "src/pystrata/motion.py: TimeSeriesMotion.calc_arias_intensity"]}
{"id": "C137", "title": "The measures of a motion do not depend on the history", "statement": "After any sequence of reads of pga, pgv, arias_intensity and cav and of writes to the array of accelerations, each read gives the measure computed from the motion as constructed, and an exception is raised again on every read.", "quantifier": "every sequence of calls of any length", "why_tests_cant": "Unbounded histories of a caching object.", "anchors": ["src/pystrata/motion.py: Motion.pga", "src/pystrata/motion.py: Motion.pgv", "src/pystrata/motion.py: Motion.arias_intensity", "src/pystrata/motion.py: Motion.cav"]}
{"id": "C138", "title": "The record shown is the record analysed", "statement": "At any time the response without transfer function is the padded record shown by accels.", "quantifier": "every sequence of reads and of writes to the array given to the constructor or handed out by accels", "why_tests_cant": "Aliasing shows only in histories with writes, of any length.", "anchors": ["src/pystrata/motion.py: TimeSeriesMotion.accels", "src/pystrata/motion.py: TimeSeriesMotion.calc_time_series"]}
{"id": "C139", "title": "The computed waves are the only motion of the site", "statement": "The fields reported by wave_at_location satisfy the wave equation in each layer, continuity of displacement and stress at contacts and a stress-free surface; every other family of fields doing so, of any form, is a constant multiple of them, so calc_accel_tf and calc_strain_tf for within locations are ratios of any motion of the site.", "quantifier": "every number of layers of any complex velocity and modulus different from zero, every frequency above the threshold, every competing field", "why_tests_cant": "Quantifies over all differentiable fields; uniqueness of solutions is no testable output.", "anchors": ["src/pystrata/propagation.py: LinearElasticCalculator._calc_waves", "src/pystrata/propagation.py: LinearElasticCalculator.calc_accel_tf", "src/pystrata/propagation.py: LinearElasticCalculator.calc_strain_tf"]}
{"id": "C140", "title": "Transfer functions obey dimensional analysis", "statement": "Multiplying all velocities by a, all thicknesses and depths by b, all unit weights by d and the frequency by a / b leaves acceleration transfer functions unchanged and multiplies strain transfer functions by b / a^2 and stress transfer functions by d b.", "quantifier": "every profile, every positive a, b and d, every pair of locations and wave fields, every frequency with both values above the threshold", "why_tests_cant": "Relation between runs over a three-parameter continuum of profiles.", "anchors": ["src/pystrata/propagation.py: LinearElasticCalculator.calc_accel_tf", "src/pystrata/propagation.py: LinearElasticCalculator.calc_strain_tf", "src/pystrata/propagation.py: LinearElasticCalculator.calc_stress_tf"]}
{"id": "C141", "title": "Quarter-wavelength amplification is bounded by impedances", "statement": "For the standard method the amplification lies between the square roots of the impedance ratios of the bottom layer to the stiffest and softest combination of the site; if slowness does not increase and density does not decrease with depth it is at least 1, at most the square root of the ratio of bottom to top impedance, and does not decrease with frequency.", "quantifier": "every site, every list of positive frequencies for which the calculation returns", "why_tests_cant": "Bounds over all profiles and all lengths of an iteration.", "anchors": ["src/pystrata/propagation.py: QuarterWaveLenCalculator._calc_amp"]}
{"id": "C142", "title": "Within motion does not exceed outcropping motion", "statement": "If all layers have the same limited damping ratio, the transfer function from the outcropping to the within motion at any depth of any layer is at most 1 in magnitude.", "quantifier": "every profile with one damping ratio, every layer and depth, every frequency above the threshold", "why_tests_cant": "Inequality over all profiles and frequencies; it fails when dampings differ, which samples need not show.", "anchors": ["src/pystrata/propagation.py: LinearElasticCalculator.wave_at_location", "src/pystrata/propagation.py: LinearElasticCalculator.calc_accel_tf"]}
{"id": "C143", "title": "Depth lookups hold in floating point", "statement": "With all depths accumulated in binary64, location(depth=d) still finds the layer whose stored depth is at or above d and whose successor starts below d, with a distance into the layer between 0 and its thickness, so that stress_vert never fails its assertion there.", "quantifier": "every profile of binary64 thicknesses, every binary64 depth, all rounding errors", "why_tests_cant": "Rounding differs for every combination of thicknesses; tests use a few round numbers.", "anchors": ["src/pystrata/site.py: Profile.lookup_depth", "src/pystrata/site.py: Profile.update_layers", "src/pystrata/site.py: Layer.stress_vert"]}
{"id": "C144", "title": "Accumulated depths and stresses are accurate in floating point", "statement": "The depth and the vertical stress stored for layer n differ from the exact sums by at most the relative error of n and n + 1 roundings, and stored depths do not decrease with the layer.", "quantifier": "every profile of binary64 thicknesses and unit weights whose layer weights do not underflow", "why_tests_cant": "A bound on all rounding errors for any number of layers.", "anchors": ["src/pystrata/site.py: Profile.update_layers"]}
{"id": "C145", "title": "Toro layering ends at the total depth in floating point", "statement": "In binary64 the thickness generator yields one layer for each depth above the total depth and one more truncated at it; the thicknesses add up to the total depth up to rounding and every mid-depth has its layer in the profile.", "quantifier": "every total depth, every increasing sequence of binary64 depths", "why_tests_cant": "The ties that make the generator go on occur in less than one percent of the realisations and for some total depths only.", "anchors": ["src/pystrata/variation.py: ToroThicknessVariation.iter_thickness", "src/pystrata/variation.py: ToroThicknessVariation.__call__"]}
{"id": "C146", "title": "Sub-layers respect the optimal thickness in floating point", "statement": "In binary64 the sub-layers made by auto_discretize exceed the optimal thickness by no more than rounding, n of them have the thickness of the layer up to half a unit in the last place, and no more than needed are made.", "quantifier": "every thickness and optimal thickness whose quotients do not underflow", "why_tests_cant": "The count is the ceiling of a rounded quotient; near integers rounding decides.", "anchors": ["src/pystrata/site.py: Profile.auto_discretize"]}
{"id": "C147", "title": "Responses carry no more energy than the transfer function allows", "statement": "If every component of the array given to TimeSeriesMotion.calc_time_series has magnitude at most g, the sum of the squares of the returned samples is at most g^2 times that of the zero-padded record and no returned sample is larger than g times the root of that sum; if every component has magnitude at least g and the first and last are real, it is at least g^2 times that of the record. In particular the surface acceleration of AccelerationTSOutput on a site with one damping ratio is bounded in this way by the product of the impedance increases between the input layer and the surface.", "quantifier": "all records, even FFT lengths, transfer functions, sites, input layers", "why_tests_cant": "a bound over all records and all transfer functions; tests compare individual series.", "anchors": ["src/pystrata/motion.py: TimeSeriesMotion.calc_time_series", "src/pystrata/propagation.py: LinearElasticCalculator.calc_accel_tf", "src/pystrata/output.py: AccelerationTSOutput"]}
{"id": "C148", "title": "Tables of stored results have one column per result", "statement": "After any sequence of calls on an output, to_dataframe returns a table whose index is the references, whose columns are the names and whose cells are the stored values.", "quantifier": "all outputs of fixed-reference and per-result-reference kind, all numbers and lengths of results", "why_tests_cant": "depends on the shape the reference array takes after each number of calls.", "anchors": ["src/pystrata/output.py: Output.to_dataframe"]}
{"id": "C149", "title": "Tables and statistics of profile outputs read the profiles at common depths", "statement": "ProfileBasedOutput.to_dataframe and calc_stats, given depths, report for every stored profile its value at these depths, and the mean and deviation of the logarithms across profiles; without depths they use evenly spaced depths down to the deepest stored one.", "quantifier": "all numbers of profiles, all depths, layer thicknesses and values", "why_tests_cant": "interpolation with padding across profiles of different lengths.", "anchors": ["src/pystrata/output.py: ProfileBasedOutput.calc_stats", "src/pystrata/output.py: ProfileBasedOutput.to_dataframe"]}
{"id": "C150", "title": "A site moves as a rigid body at low frequencies", "statement": "For every site whose layers have non-zero complex velocity and modulus, with impedances within a factor r of a common value, the acceleration transfer function between any two locations (outcrop or within) differs from 1 by at most 2d/(1-d) with d = r(exp((1+r)|w|T)-1), T being the travel time of the complex slowness from the surface to the deeper location, as long as d < 1.", "quantifier": "all numbers of layers, thicknesses, dampings, frequencies, pairs of locations", "why_tests_cant": "a limit over all frequencies and sites; tests evaluate one site at sampled frequencies.", "anchors": ["src/pystrata/propagation.py: _calc_waves_python", "src/pystrata/propagation.py: LinearElasticCalculator.wave_at_location", "src/pystrata/propagation.py: LinearElasticCalculator.calc_accel_tf"]}
{"id": "C151", "title": "Undamped sites carry standing waves", "statement": "Without damping, at every frequency above 1e-8 rad/s and relative to the surface, the within motion at any depth of any layer is the real part of the outcropping motion at that depth and the strain is the imaginary part times gravity/(angular frequency * velocity); so in each layer squared motion plus squared scaled strain does not depend on depth, and the transfer function from a recording inside the site to the surface is undefined exactly at the nodes.", "quantifier": "all numbers of layers, impedances, thicknesses, frequencies, depths", "why_tests_cant": "an identity over all layered sites and frequencies; tests evaluate a few sites within a tolerance.", "anchors": ["src/pystrata/propagation.py: _calc_waves_python", "src/pystrata/propagation.py: LinearElasticCalculator.wave_at_location", "src/pystrata/propagation.py: LinearElasticCalculator.calc_accel_tf", "src/pystrata/propagation.py: LinearElasticCalculator.calc_strain_tf"]}
{"id": "C152", "title": "Branch weights are accurate in floating point", "statement": "In binary64 arithmetic, whatever order numpy multiplies in, the weight of a yielded branch of a logic tree with binary64 weights up to 1 is positive and within (1+2^-53)^(nodes-1)-1 (relative) of the exact product, and the sum over the branches in any order is within (1+2^-53)^(nodes+branches-2)-1 of the exact sum, as long as no branch weight is below 2^-1000.", "quantifier": "all trees, conditions, weights, orders of multiplication and addition", "why_tests_cant": "rounding errors of all weights and all orders of evaluation; tests compare a few sums with a tolerance.", "anchors": ["src/pystrata/logic_tree.py: Branch.weight", "src/pystrata/logic_tree.py: LogicTree.__iter__"]}
{"id": "C153", "title": "Editing a curve is the same as building it anew", "statement": "After any sequence of assignments to strains and values, a nonlinear curve answers every call as the curve constructed from the arrays it now holds, whether the intermediate tables fitted together or not; an assignment that raises has no effect.", "quantifier": "all sequences of assignments, arrays, strains", "why_tests_cant": "every sequence of assignments, with tables of unequal length in between.", "anchors": ["src/pystrata/site.py: NonlinearCurve._update", "src/pystrata/site.py: NonlinearCurve.strains", "src/pystrata/site.py: NonlinearCurve.values", "src/pystrata/site.py: NonlinearCurve.__call__"]}
{"id": "C154", "title": "Curves with several columns answer for every requested strain", "statement": "A nonlinear curve with a two-dimensional table of values returns, for each requested strain and each column, the value of the one-column curve of that column at that strain.", "quantifier": "all tables, strains, numbers of columns and of strains", "why_tests_cant": "all tables and shapes; the tests call with one strain.", "anchors": ["src/pystrata/site.py: NonlinearCurve.__call__", "src/pystrata/site.py: NonlinearCurve._update"]}
{"id": "C155", "title": "A quarter-wavelength calculator reports the amplification of its profile", "statement": "At any time the amplification and site term of a QuarterWaveLenCalculator are those of its current profile and motion: square root of the ratio of the impedance of the bottom layer to that formed with the mean density and the mean velocity (depth over travel time) down to a quarter wavelength; they do not depend on earlier calls.", "quantifier": "all sequences of calls, profiles, frequencies", "why_tests_cant": "all profiles and histories, including calls that raise.", "anchors": ["src/pystrata/propagation.py: QuarterWaveLenCalculator.__call__", "src/pystrata/propagation.py: QuarterWaveLenCalculator._calc_amp", "src/pystrata/propagation.py: AbstractCalculator.__call__"]}
{"id": "C156", "title": "Nodes of an unconditional logic tree are independent", "statement": "For a logic tree without conditions whose nodes have different values, the weighted sum over all branches of a product of functions of the node values is the product over the nodes of the weighted sums over their alternatives; with node weights adding up to 1, the branches with a given value at a node have together the weight of that alternative.", "quantifier": "all trees, weights, functions of the values", "why_tests_cant": "an identity over all trees and functions; tests sum the weights of one tree.", "anchors": ["src/pystrata/logic_tree.py: LogicTree.__iter__", "src/pystrata/logic_tree.py: Branch.weight", "src/pystrata/logic_tree.py: Node.__iter__"]}
{"id": "C157", "title": "The site loses exactly the energy that enters it", "statement": "At every depth the work that the reported shear stress does per cycle on the reported displacement equals the energy lost per cycle above that depth: over each layer the integral of 4 pi times the (limited) damping ratio times the largest strain energy of the reported strains. So energy never flows downwards, undamped sites pass none, and in an undamped layer the incoming wave carries more than the reflected one by exactly what is lost above.", "quantifier": "all numbers of layers, thicknesses, moduli, dampings, frequencies above 1e-8 rad/s, input locations with a motion", "why_tests_cant": "an identity between computed accelerations, strains, stresses and material damping over all sites and frequencies; no test computes an energy.", "anchors": ["src/pystrata/propagation.py: _calc_waves_python", "src/pystrata/propagation.py: LinearElasticCalculator.calc_accel_tf", "src/pystrata/propagation.py: LinearElasticCalculator.calc_strain_tf", "src/pystrata/propagation.py: LinearElasticCalculator.calc_stress_tf", "src/pystrata/site.py: Layer.comp_shear_mod"]}
{"id": "C158", "title": "Response spectra approach the peak acceleration at short periods", "statement": "For an oscillator frequency f0 above the highest frequency 1/(2 dt) of a record, the spectral acceleration with damping xi under a transfer function of magnitude at most g differs from the peak of the response by at most g (r^2 + 2 xi r)/(1 - r^2) times the root of the sum of the squared samples, r = 1/(2 dt f0); without transfer function it approaches the peak ground acceleration of the record.", "quantifier": "all records, even FFT lengths, transfer functions, damping ratios, oscillator frequencies", "why_tests_cant": "a limit over oscillator frequencies for all records.", "anchors": ["src/pystrata/motion.py: TimeSeriesMotion.calc_osc_accels", "src/pystrata/motion.py: TimeSeriesMotion._calc_sdof_tf", "src/pystrata/motion.py: TimeSeriesMotion.calc_peak"]}
{"id": "C159", "title": "Listing one value is the same as giving it", "statement": "A requirement or exclusion of a logic tree written as a list of one value has the same effect as the value itself: the iteration yields the same branches.", "quantifier": "all trees, conditions and values", "why_tests_cant": "every tree and every pair of nearly equal numbers.", "anchors": ["src/pystrata/logic_tree.py: Realization.is_valid", "src/pystrata/logic_tree.py: Alternative.is_valid", "src/pystrata/logic_tree.py: LogicTree.__iter__"]}
{"id": "C160", "title": "Response spectra approach the offset of the record at long periods", "statement": "For an oscillator frequency f0 below 1/(n dt), n being the FFT length, the spectral acceleration under a transfer function of magnitude at most g differs from the magnitude of the mean of the padded record times the real part of the transfer function at zero frequency by at most g r^2/(1 - r^2) times the root of the sum of the squared samples, r = f0 n dt; so it vanishes at long periods exactly if that product does.", "quantifier": "all records, even FFT lengths, transfer functions, damping ratios, oscillator frequencies", "why_tests_cant": "a limit over oscillator frequencies for all records.", "anchors": ["src/pystrata/motion.py: TimeSeriesMotion.calc_osc_accels", "src/pystrata/motion.py: TimeSeriesMotion._calc_sdof_tf", "src/pystrata/motion.py: TimeSeriesMotion.calc_peak"]}
{"id": "C161", "title": "Weak motions leave a nonlinear site as it was", "statement": "For a profile whose modulus-reduction curves begin at 1 and whose curves all begin at some positive strain, an equivalent-linear run of a motion whose estimated and effective strains do not exceed the first tabulated strains ends after one iteration, converged, with every layer at its initial modulus and minimum damping and with the waves of the linear-elastic calculator; every record does so once it is multiplied by a small enough factor, and the waves do not depend on the factor.", "quantifier": "all profiles, curves, records, input locations, tolerances, iteration limits and strain limits", "why_tests_cant": "a limit over amplitudes, for every record and site.", "anchors": ["src/pystrata/propagation.py: EquivalentLinearCalculator.__call__", "src/pystrata/propagation.py: EquivalentLinearCalculator._estimate_strains", "src/pystrata/site.py: Layer.strain", "src/pystrata/site.py: Layer.reset"]}
{"id": "C162", "title": "Curves evaluated in floating point stay on their table", "statement": "With binary64 arithmetic the value of a curve lies between its limits, equals the tabulated value (within the limits) at every tabulated strain and the end values outside the table, all exactly; between two tabulated strains it moves in the direction of the table and never back beyond the value on the left; for tables of fractions it is within 10 / 2^53 of the line between the computed logarithms, within an explicit bound of the exact curve, and a falling (rising) table never gives a rise (fall) of more than 20 / 2^53.", "quantifier": "all tables of binary64 values, strains, limits, monotone logarithm implementations, with or without fused multiply-add", "why_tests_cant": "every binary64 strain and table, for unspecified logarithm routines.", "anchors": ["src/pystrata/site.py: NonlinearCurve.__call__", "src/pystrata/site.py: NonlinearCurve._update"]}
{"id": "C163", "title": "Weak motions in the frequency-dependent calculator", "statement": "For a profile whose modulus-reduction curves begin at 1 and whose curves all begin at some positive strain, a frequency-dependent run of a motion whose estimated and effective strains do not exceed the first tabulated strains, and whose strain spectra are finite, converges in one iteration, with the initial modulus and the minimum damping of every layer at every frequency and with the waves of the linear-elastic calculator.", "quantifier": "all profiles, curves, motions, input locations, tolerances, methods, strain ratios and non-negative smoothing routines", "why_tests_cant": "every site and motion below the threshold, at every frequency.", "anchors": ["src/pystrata/propagation.py: EquivalentLinearCalculator.__call__", "src/pystrata/propagation.py: FrequencyDependentEqlCalculator._calc_strain", "src/pystrata/site.py: Layer.strain"]}
{"id": "C164", "title": "The linear response depends continuously on the site", "statement": "At every frequency above the threshold of the kernels, the acceleration and strain transfer functions of a linear-elastic analysis between any two locations with non-zero input motion change by less than any given amount when the frequency, the velocities, minimum dampings, unit weights and thicknesses of all layers and the depths of the locations change by less than a suitable amount; in particular no branch of the kernels, of the complex modulus or of its square root introduces a jump.", "quantifier": "every number of layers, every site of positive velocity and weight, every damping, frequency and pair of locations", "why_tests_cant": "a limit statement about all perturbations; tests compare a few sites.", "anchors": ["src/pystrata/propagation.py: LinearElasticCalculator._calc_waves", "src/pystrata/propagation.py: LinearElasticCalculator.calc_accel_tf", "src/pystrata/propagation.py: LinearElasticCalculator.calc_strain_tf", "src/pystrata/site.py: Layer.comp_shear_mod", "src/pystrata/site.py: Layer.comp_shear_vel"]}
{"id": "C165", "title": "Strain-compatible states exist and are kept", "statement": "For an EquivalentLinearCalculator and a recorded motion (even transform length), a profile with one nonlinear layer above the half-space whose curves are tables with increasing positive strains has a strain-compatible state: moduli and dampings that are the soil's values at exactly the effective strain which the motion causes in the profile with those moduli and dampings. A run that starts from a strain-compatible state without reset converges in its first iteration and leaves every modulus and damping as it found them.", "quantifier": "all records, profiles with one nonlinear layer, curves, strain ratios and limits, input locations", "why_tests_cant": "The state is the zero of a continuous function; tests can only watch the iteration approach one for chosen inputs, and cannot show that there is one to approach.", "anchors": ["src/pystrata/propagation.py: EquivalentLinearCalculator.__call__", "src/pystrata/propagation.py: EquivalentLinearCalculator._calc_strain", "src/pystrata/site.py: Layer.strain", "src/pystrata/motion.py: TimeSeriesMotion.calc_peak"]}
{"id": "C166", "title": "Where the equivalent-linear iteration settles it is strain-compatible", "statement": "For any profile whose curves are tables with increasing positive strains and for any recorded motion (even transform length): if runs of EquivalentLinearCalculator that differ in max_iterations only never meet the tolerance, and the moduli and dampings which they leave in the layers approach those of some profile as max_iterations grows, then that profile is strain-compatible: every modulus and damping above the half-space is the soil's value at exactly the effective strain which the motion causes in that profile.", "quantifier": "all profiles with any number of nonlinear layers, records, strain ratios and limits, input locations, with and without reset", "why_tests_cant": "A statement about the limit of infinitely many runs.", "anchors": ["src/pystrata/propagation.py: EquivalentLinearCalculator.__call__", "src/pystrata/propagation.py: EquivalentLinearCalculator._calc_strain", "src/pystrata/site.py: Layer.strain", "src/pystrata/site.py: NonlinearCurve.__call__"]}
{"id": "C167", "title": "Outputs of a linear analysis depend continuously on the site", "statement": "For the linear-elastic calculator and a recorded motion (even transform length), at any location: every sample of the acceleration and strain series, every ordinate of the response spectrum, of the Fourier amplitude spectrum and of the transfer function reported by the output classes changes by less than any given amount when the velocities, minimum dampings, unit weights and thicknesses of all layers change by less than a suitable amount; the zero frequency, the kernels' threshold and the interpolation of the outputs introduce no jump.", "quantifier": "all records, sites of positive velocity and weight, dampings, locations, output frequencies, oscillator dampings", "why_tests_cant": "a limit statement about all perturbations of a site; tests compare a few sites.", "anchors": ["src/pystrata/propagation.py: LinearElasticCalculator.__call__", "src/pystrata/output.py: AccelerationTSOutput", "src/pystrata/output.py: ResponseSpectrumOutput", "src/pystrata/output.py: FourierAmplitudeSpectrumOutput", "src/pystrata/output.py: AccelTransferFunctionOutput", "src/pystrata/output.py: StrainTSOutput", "src/pystrata/motion.py: TimeSeriesMotion.calc_time_series"]}
{"id": "C168", "title": "Equivalent-linear results depend continuously on the site", "statement": "For the equivalent-linear calculator: if a run ends no pass with an error exactly equal to the tolerance, asks for no strain exactly equal to the strain limit, and all dampings are positive, then every site whose velocities, minimum dampings, unit weights and thicknesses are close enough and which has the same curves is analysed in the same number of passes and stops for the same reason, and its moduli, dampings, recorded maximum strains and (for a record) all reported series, spectra and transfer functions differ from those of the first site by less than any given amount. For a given site only finitely many tolerances can violate the first condition, and every strain limit above the strains of the unlimited run meets the second and changes nothing: the only jumps of the results come from a change in the number of passes or in whether a pass limits a strain.", "quantifier": "all sites of physical layers with tabulated curves, any number of nonlinear layers, records, input and output locations, parameters without limit", "why_tests_cant": "a limit statement about all perturbations of a site through a data-dependent number of iterations; tests compare a few sites.", "anchors": ["src/pystrata/propagation.py: EquivalentLinearCalculator.__call__", "src/pystrata/propagation.py: EquivalentLinearCalculator._calc_strain", "src/pystrata/propagation.py: EquivalentLinearCalculator._estimate_strains", "src/pystrata/site.py: Layer.strain", "src/pystrata/site.py: IterativeValue.relative_error", "src/pystrata/output.py: AccelerationTSOutput", "src/pystrata/output.py: ResponseSpectrumOutput"]}
{"id": "C169", "title": "A frequency-dependent run on a physical site ends normally", "statement": "FrequencyDependentEqlCalculator on a profile of layers with positive unit weight, velocity and modulus values and a motion with a peak for every array: as long as all strain spectra are finite the call raises nothing but the RuntimeError of the strain limit, and that only if a limit is set, for every method, number of layers and number of frequencies. With zr15 and ko methods, positive damping and a motion that is not zero at all non-zero frequencies, every strain spectrum of every pass is finite: the strain transfer function at mid-depth of a layer is never zero, so the division by the largest amplitude is never a division by zero, and the run ends by converging or by using up its iterations.", "quantifier": "all physical profiles, motions, methods, tolerances, iteration counts, limits and input locations (outcrop or incoming)", "why_tests_cant": "needs that the strain amplitude at the middle of every layer is non-zero at every frequency in every pass of an iteration; tests see a few runs.", "anchors": ["src/pystrata/propagation.py: FrequencyDependentEqlCalculator.__call__", "src/pystrata/propagation.py: FrequencyDependentEqlCalculator._calc_strain", "src/pystrata/propagation.py: FrequencyDependentEqlCalculator._estimate_strains", "src/pystrata/propagation.py: EquivalentLinearCalculator.__call__", "src/pystrata/propagation.py: LinearElasticCalculator._calc_waves"]}
{"id": "C170", "title": "When the ka02 method gives finite strains", "statement": "FrequencyDependentEqlCalculator._calc_strain with ka02, for ascending non-negative frequencies and strain amplitudes that are positive (the first may be zero): the spectrum is finite exactly when the second frequency lies below the mean frequency, the ratio of the areas below frequency times amplitude and below the amplitude. With at most one frequency below the mean, the normalising strain is zero and the division by it gives infinities; with two frequencies this always happens.", "quantifier": "all frequency vectors, amplitudes, effective strains and least-squares results", "why_tests_cant": "needs the sign of integrals of arbitrary spectra; tests use long broadband motions for which the condition holds.", "anchors": ["src/pystrata/propagation.py: FrequencyDependentEqlCalculator._calc_strain"]}
{"id": "C171", "title": "Nodes and branches as containers, and the number of branches", "statement": "len, indexing, options and to_xarray of a logic-tree node describe the same alternatives in the same order; bare values become alternatives of weight one without conditions. A branch contains exactly the names of the nodes. The number of branches never exceeds the product of the numbers of positive-weight alternatives, equals it without conditions and with distinct values, and is then the product of the lengths of the nodes exactly when all weights are positive: len and options also count alternatives that the iteration skips.", "quantifier": "all nodes, item lists, indices and trees", "why_tests_cant": "quantifies over all trees; tests count the branches of a few.", "anchors": ["src/pystrata/logic_tree.py: Node.__post_init__", "src/pystrata/logic_tree.py: Node.__len__", "src/pystrata/logic_tree.py: Node.__getitem__", "src/pystrata/logic_tree.py: Node.options", "src/pystrata/logic_tree.py: Node.to_xarray", "src/pystrata/logic_tree.py: Node.__iter__", "src/pystrata/logic_tree.py: Branch.__getitem__", "src/pystrata/logic_tree.py: Branch.__contains__", "src/pystrata/logic_tree.py: Branch.value", "src/pystrata/logic_tree.py: LogicTree.__iter__"]}
{"id": "C172", "title": "Stored waves belong to the reported properties", "statement": "After an equivalent-linear run that ends normally, the stored wave amplitudes and wave numbers, from which every transfer function and output is computed, are those of the moduli and dampings that the layers of the profile report. (False of the code: they are those of the layers before the last pass, hence those of the reported layers exactly if the last pass changed no modulus and no limited damping; a converged run on a physical site is exhibited where they differ.)", "quantifier": "all sites, motions, settings and runs", "why_tests_cant": "tests compare computed spectra with reference files to a tolerance; none compares the stored waves with the properties reported with them.", "anchors": ["src/pystrata/propagation.py: EquivalentLinearCalculator.__call__", "src/pystrata/propagation.py: LinearElasticCalculator._calc_waves"]}
{"id": "C173", "title": "Copies of soil types", "statement": "SoilType.copy shares name, unit weight and curves with the original. The copy is equal to the original exactly if the original is a plain SoilType (a copy of an instance of a subclass is a plain SoilType and never equal to it), yet every linear-elastic and equivalent-linear run on layers whose soil types were replaced by their copies ends the same way, stores the same waves and reports the same numbers. The quality is the inverse of twice the minimum damping; zero raises for a constant damping and is infinite for a curve.", "quantifier": "all soil types, sites, motions, settings and runs", "why_tests_cant": "quantifies over all soil types and runs; no test copies a soil type.", "anchors": ["src/pystrata/site.py: SoilType.copy", "src/pystrata/site.py: SoilType.__eq__", "src/pystrata/site.py: SoilType.quality", "src/pystrata/propagation.py: EquivalentLinearCalculator.__call__"]}
{"id": "C174", "title": "Keyword arguments of the generic velocity variations", "statement": "ToroVelocityVariation.generic_model stores every keyword given and takes every other parameter from the site class; an unknown keyword raises TypeError and an unknown site class KeyError. DepthDependToroVelVariation.generic_model does the same for every parameter but ln_std: without depth the standard deviations are always 0.25 and 0.15 at 0 and 15 m, and with depth but without ln_std the single number of the site class is stored, so that computing the standard deviations of any profile raises TypeError.", "quantifier": "all site classes and keyword arguments", "why_tests_cant": "quantifies over all combinations of keywords; tests use one.", "anchors": ["src/pystrata/variation.py: ToroVelocityVariation.generic_model", "src/pystrata/variation.py: DepthDependToroVelVariation.generic_model", "src/pystrata/variation.py: DepthDependToroVelVariation._calc_ln_std"]}
