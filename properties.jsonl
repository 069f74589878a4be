{"id": "C01", "title": "Convective subcolumns are a prefix of the requested size", "statement": "After set_convective_sub_col_frac with N>=2 subcolumns, at every (time, height) cell the convective flag of a hydrometeor type is True in exactly the first k subcolumns and False in the others, where k is fraction*N rounded half-to-even (and k=0 under radiation logic where q is not above the truncation threshold).", "quantifier": "every N>=2, every field of fractions in [0,1], every mixing ratio, every cell, both logics", "why_tests_cant": "k depends on a rounding of an arbitrary real fraction for arbitrary N and grid; tests use fractions 0, 0.5, 1 and N=8", "anchors": ["emc2/simulator/subcolumn.py:set_convective_sub_col_frac"]}
{"id": "C02", "title": "Convective clouds of different types overlap maximally", "statement": "For any two hydrometeor types and any two heights in one column, the convective subcolumn set of one is contained in that of the other, the larger belonging to the larger requested count.", "quantifier": "every pair of types, heights, times and fractions", "why_tests_cant": "relational property over all pairs of outputs", "anchors": ["emc2/simulator/subcolumn.py:set_convective_sub_col_frac"]}
{"id": "C03", "title": "The number of subcolumns is fixed once set", "statement": "In any sequence of subcolumn-generation calls (convective, stratiform, precipitation, q/N distribution) the number of subcolumns, once non-zero, is never changed by a later call; a convective call asking for another positive number raises ValueError and a precipitation call that names any number raises ValueError, both leaving the dataset unchanged.", "quantifier": "every finite history of API calls with every argument, from every initial model", "why_tests_cant": "needs induction over all call histories", "anchors": ["emc2/simulator/subcolumn.py:set_convective_sub_col_frac", "emc2/simulator/subcolumn.py:set_stratiform_sub_col_frac", "emc2/simulator/subcolumn.py:set_precip_sub_col_frac", "emc2/simulator/subcolumn.py:set_q_n", "emc2/core/model.py:num_subcolumns"]}
{"id": "C04", "title": "Stratiform liquid and ice overlap maximally within a level", "statement": "After set_stratiform_sub_col_frac, at every time and height the set of subcolumns with stratiform liquid cloud and the set with stratiform ice cloud are nested, the smaller set belonging to the type with the smaller requested count.", "quantifier": "every N, column height, request profile in 0..N, convective mask and random draw", "why_tests_cant": "holds for every outcome of the random permutations", "anchors": ["emc2/simulator/subcolumn.py:set_stratiform_sub_col_frac", "emc2/simulator/subcolumn.py:_allocate_strat_sub_col"]}
{"id": "C05", "title": "Stratiform cloud occupies the requested number of subcolumns", "statement": "Below the top model level, the number of subcolumns holding stratiform cloud of a type equals round(fraction*N), capped by the number of subcolumns free of convection at that level.", "quantifier": "every N, request profile, convective mask and random draw", "why_tests_cant": "count is an exact arithmetic consequence of a five-way case split fed by the level above, for all draws", "anchors": ["emc2/simulator/subcolumn.py:_allocate_strat_sub_col"]}
{"id": "C06", "title": "Stratiform cloud never shares a subcolumn with convection", "statement": "No subcolumn that is convective at a level is given stratiform cloud at that level.", "quantifier": "every N, profile, convective mask and random draw", "why_tests_cant": "must hold for all masks and draws", "anchors": ["emc2/simulator/subcolumn.py:_allocate_strat_sub_col"]}
{"id": "C07", "title": "Stratiform cloud overlaps the level above maximally", "statement": "At each level the number of subcolumns of a type that continue cloud (of any type, in a subcolumn without convection) of the level above is the largest possible, min(requested count, number of such overlying cloudy subcolumns).", "quantifier": "every N, profile, convective mask and random draw", "why_tests_cant": "optimality over all placements", "anchors": ["emc2/simulator/subcolumn.py:_allocate_strat_sub_col"]}
{"id": "C08", "title": "The top model level holds no generated stratiform cloud or precipitation", "statement": "With N>=2 the highest level of every column receives no stratiform cloud and no precipitation whatever the fractions are, and no subcolumn beyond the N requested is ever set.", "quantifier": "every profile, N>=2, number of levels and draw", "why_tests_cant": "all shapes and draws", "anchors": ["emc2/simulator/subcolumn.py:_allocate_strat_sub_col", "emc2/simulator/subcolumn.py:_allocate_precip_sub_col"]}
{"id": "C09", "title": "Precipitation occupies the requested number of subcolumns", "statement": "Below the top level, each precipitation class occupies exactly round(fraction*N) subcolumns.", "quantifier": "every number of classes, N, fraction profile in [0,1], cloud mask and draw", "why_tests_cant": "exactness over all draws and class counts", "anchors": ["emc2/simulator/subcolumn.py:set_precip_sub_col_frac", "emc2/simulator/subcolumn.py:_allocate_precip_sub_col"]}
{"id": "C10", "title": "Precipitation classes overlap maximally", "statement": "At a level, of two precipitation classes the one with the smaller requested count occupies a subset of the subcolumns of the other.", "quantifier": "every pair of classes, N, profile, cloud mask and draw", "why_tests_cant": "relational, all draws", "anchors": ["emc2/simulator/subcolumn.py:_allocate_precip_sub_col"]}
{"id": "C11", "title": "Precipitation continues overlying precipitation first", "statement": "At a level, the subcolumns of the class with the largest count include min(that count, number of precipitating subcolumns just above) of the subcolumns that precipitate just above (in any class).", "quantifier": "every class list, N, profile, cloud mask and draw", "why_tests_cant": "optimality, all draws", "anchors": ["emc2/simulator/subcolumn.py:_allocate_precip_sub_col"]}
{"id": "C12", "title": "New precipitation fills cloudy subcolumns before clear ones", "statement": "If at a level some class precipitates in a cloud-free subcolumn that has no precipitation just above, then every cloudy subcolumn of that level precipitates.", "quantifier": "every class list, N, profile, cloud mask and draw", "why_tests_cant": "universally quantified priority rule over random placements", "anchors": ["emc2/simulator/subcolumn.py:_allocate_precip_sub_col"]}
{"id": "C13", "title": "Stratiform and precipitation allocation do not depend on the execution schedule", "statement": "With parallel=False, parallel=True with chunk=None, and parallel=True with any chunk>=1 the per-column results are assembled into the same field (given the same per-column random draws): each time index is processed exactly once and lands at its own position.", "quantifier": "every number of columns and every chunk size >=1", "why_tests_cant": "all schedules; tests run one", "anchors": ["emc2/simulator/subcolumn.py:set_stratiform_sub_col_frac", "emc2/simulator/subcolumn.py:set_precip_sub_col_frac"]}
{"id": "C14", "title": "Cloud-water distribution does not depend on the execution schedule", "statement": "set_q_n with subgrid variability gives the same q field, each column at its own time index, for parallel=False and for every chunk size.", "quantifier": "every number of columns and every chunk size >=1", "why_tests_cant": "all schedules", "anchors": ["emc2/simulator/subcolumn.py:set_q_n"]}
{"id": "C15", "title": "Uniform distribution conserves mass up to the rounding of the fraction", "statement": "With uniform distribution the subcolumn mixing ratio is q/fraction in the subcolumns holding the type and 0 elsewhere, so its sum over subcolumns times the fraction equals q times the number of occupied subcolumns; the grid-box mean is recovered exactly when fraction*N is a whole number.", "quantifier": "every q above threshold, positive fraction, N and flag field", "why_tests_cant": "real-valued identity for all inputs", "anchors": ["emc2/simulator/subcolumn.py:set_q_n"]}
{"id": "C16", "title": "Subcolumn number concentration conserves number up to the rounding of the fraction", "statement": "Stratiform N in subcolumns is N/fraction where the type is present, 0 elsewhere (0 also where it would be undefined).", "quantifier": "every N, fraction and flag field", "why_tests_cant": "real-valued identity for all inputs", "anchors": ["emc2/simulator/subcolumn.py:set_q_n"]}
{"id": "C17", "title": "Variable cloud-water distribution conserves mass exactly", "statement": "With the gamma-distributed option and columns processed without chunking (for chunks see C14 and C50), whenever the call returns, the sum over subcolumns equals in-cloud mean times number of cloudy subcolumns, every value is non-negative, and values are 0 outside cloud, for every random draw.", "quantifier": "every in-cloud mean, flag column, permutation and list of non-negative gamma draws", "why_tests_cant": "all random draws", "anchors": ["emc2/simulator/subcolumn.py:_distribute_cl_q_n"]}
{"id": "C18", "title": "Variable cloud-water distribution always returns", "statement": "The search for a valid truncation of the random draws terminates for every input.", "quantifier": "every in-cloud mean >=0, number of cloudy subcolumns and draws", "why_tests_cant": "termination for all inputs", "anchors": ["emc2/simulator/subcolumn.py:_distribute_cl_q_n"]}
{"id": "C19", "title": "Turning the subcolumn generator off copies the grid-box state", "statement": "With a single subcolumn, the flag of each type is 1 exactly where its mixing ratio is above the threshold, and the subcolumn mixing ratio is q/fraction there and 0 elsewhere.", "quantifier": "every field and threshold", "why_tests_cant": "all inputs incl. zero fractions", "anchors": ["emc2/simulator/subcolumn.py:set_convective_sub_col_frac", "emc2/simulator/subcolumn.py:set_stratiform_sub_col_frac", "emc2/simulator/subcolumn.py:set_precip_sub_col_frac", "emc2/simulator/subcolumn.py:set_q_n"]}
{"id": "C20", "title": "Generation steps enforce their order", "statement": "Stratiform generation with convection on raises KeyError unless the convective cl and ci subcolumns exist; precipitation generation raises RuntimeError when no subcolumn number is known and KeyError when the cloud subcolumns are missing; q/N distribution raises RuntimeError when no subcolumn number is set; failed calls leave the dataset unchanged.", "quantifier": "every model state and argument", "why_tests_cant": "all reachable states", "anchors": ["emc2/simulator/subcolumn.py"]}
{"id": "C21", "title": "Optical depth accumulates monotonically away from the instrument", "statement": "accumulate_OD gives 0 at the level of the instrument end, is non-decreasing away from it for non-negative extinction and increasing heights, and equals the sum over the traversed layers of layer thickness times the extinction of the level nearer to the instrument.", "quantifier": "every profile length, extinction and height profile, both viewing directions", "why_tests_cant": "induction over levels", "anchors": ["emc2/simulator/lidar_moments.py:accumulate_OD"]}
{"id": "C22", "title": "Attenuated backscatter never exceeds unattenuated backscatter", "statement": "Attenuated total backscatter equals (molecular + particulate backscatter) times the molecular transmittance times exp(-2*eta*OD), hence lies in [0, beta] and equals beta times the molecular transmittance where OD=0.", "quantifier": "every non-negative beta, alpha, eta and profile", "why_tests_cant": "all real inputs", "anchors": ["emc2/simulator/lidar_moments.py:calc_total_alpha_beta"]}
{"id": "C23", "title": "Lidar totals add stratiform and convective parts", "statement": "Total extinction and backscatter are the sum of stratiform and convective totals, a missing (NaN) part counting as 0.", "quantifier": "every pair of fields including NaN", "why_tests_cant": "all inputs", "anchors": ["emc2/simulator/lidar_moments.py:calc_total_alpha_beta"]}
{"id": "C24", "title": "Linear depolarisation ratio is a weighted mean", "statement": "Total LDR lies between the smallest and largest per-class LDR of the classes with non-zero backscatter and uses the per-class values given by the caller.", "quantifier": "every set of classes, non-negative backscatters and LDR table", "why_tests_cant": "all inputs and class sets", "anchors": ["emc2/simulator/lidar_moments.py:calc_LDR_and_ext"]}
{"id": "C25", "title": "Extinction mask marks exactly the extinguished layers", "statement": "The mask is 2 exactly where OD exceeds the threshold, 1 exactly at the last layer before extinction in viewing direction, 0 elsewhere.", "quantifier": "every monotone OD profile, threshold and viewing direction", "why_tests_cant": "all profile lengths", "anchors": ["emc2/simulator/lidar_moments.py:calc_LDR_and_ext"]}
{"id": "C26", "title": "Lidar phase class follows the last exceeded threshold", "statement": "The lidar phase mask of a cell is the class value of the last class in the instrument list whose interpolated threshold does not exceed log10 of the backscatter, 0 when none or when the OD exceeds the extinction limit.", "quantifier": "every threshold list, LDR, backscatter and OD", "why_tests_cant": "all lists and reals", "anchors": ["emc2/simulator/classification.py:lidar_classify_phase"]}
{"id": "C27", "title": "COSP phase mask is well formed", "statement": "The emulated COSP mask takes values in {0,1,2,3}: 0 where the scattering ratio does not exceed the cloud threshold; elsewhere 3 exactly where, seen from the instrument, a layer in front exceeds the undefined threshold, else ice (2) below 233.15 K, liquid (1) above 273.15 K, and in between ice exactly when the cross-polar backscatter lies above the discrimination curve of the total backscatter.", "quantifier": "every profile of scattering ratio, cross-polar backscatter, temperature", "why_tests_cant": "all profiles", "anchors": ["emc2/simulator/classification.py:lidar_emulate_cosp_phase"]}
{"id": "C28", "title": "Radar phase mask is a function of detectability and cloud flags", "statement": "The radar mask is in {0,1,2,3}: 0 outside the height range and where there is neither detectable signal nor cloud, 1 cloud below the detection limit, 2 detectable signal with cloud, 3 detectable signal without cloud.", "quantifier": "every cell state", "why_tests_cant": "all inputs", "anchors": ["emc2/simulator/classification.py:radar_classify_phase"]}
{"id": "C29", "title": "Phase ratios are proportions", "statement": "The frequency phase ratio is the number of subcolumns in the numerator classes over the number in the denominator classes, the mass phase ratio liquid mass over liquid plus ice mass; both are NaN exactly where the denominator vanishes and otherwise in [0,1] (frequency: when the numerator classes are among the denominator classes; mass: for non-negative masses).", "quantifier": "every mask field, class sets and mass fields", "why_tests_cant": "all inputs", "anchors": ["emc2/simulator/classification.py:calculate_phase_ratio"]}
{"id": "C30", "title": "Radar totals add linear reflectivities", "statement": "Total reflectivity in dBZ is 10*log10 of the sum of linear stratiform and convective reflectivities; missing parts count 0; a cell with no reflectivity at all is NaN.", "quantifier": "every pair of fields", "why_tests_cant": "all reals", "anchors": ["emc2/simulator/radar_moments.py:calc_total_reflectivity"]}
{"id": "C31", "title": "Detectability mask marks signals below the noise floor", "statement": "The mask is True exactly where the attenuated reflectivity is below or at the minimum detectable one, or there is no signal.", "quantifier": "every field including clear cells", "why_tests_cant": "all inputs", "anchors": ["emc2/simulator/radar_moments.py:calc_total_reflectivity"]}
{"id": "C32", "title": "Minimum detectable reflectivity follows the range-squared law", "statement": "Ze_min(z) = Z_min_1km + 20 log10(z) - 20 log10(ref_rng); it is increasing in range, equals Z_min_1km at ref_rng, and doubling range adds 20 log10 2; make_simulated_data honours a caller's ref_rng.", "quantifier": "every z>0 and ref_rng>0", "why_tests_cant": "all reals", "anchors": ["emc2/simulator/attenuation.py:calc_radar_Ze_min", "emc2/simulator/main.py:make_simulated_data"]}
{"id": "C33", "title": "Radar path attenuation only reduces signal and accumulates", "statement": "Two-way transmittance computed by accumulate_attenuation is 1 at the instrument end, non-increasing away from it and in (0,1] for non-negative extinction.", "quantifier": "every profile, both directions", "why_tests_cant": "induction over levels", "anchors": ["emc2/simulator/radar_moments.py:accumulate_attenuation"]}
{"id": "C34", "title": "Contributions of hydrometeor classes accumulate independently of class order", "statement": "In bulk and empirical lidar and radar calculations the total over classes is the sum of per-class contributions, independent of the order in which classes are listed, including extinction used for attenuation.", "quantifier": "every class list and permutation", "why_tests_cant": "all permutations", "anchors": ["emc2/simulator/lidar_moments.py", "emc2/simulator/radar_moments.py"]}
{"id": "C35", "title": "Recomputing moments gives the same result", "statement": "Calling a moments calculation twice on the same model gives the same totals as calling it once.", "quantifier": "every model and number of repeats", "why_tests_cant": "all histories", "anchors": ["emc2/simulator/lidar_moments.py:calc_lidar_micro", "emc2/simulator/radar_moments.py:calc_radar_micro"]}
{"id": "C36", "title": "Stacking and unstacking time/lat/lon is lossless", "statement": "For a dataset with more than one (lat, lon) column, check_and_stack_time_lat_lon followed by unstack_time_lat_lon restores every value to its original (time, lat, lon) index, and a field computed while stacked is placed at the (time, lat, lon) of its column; the coordinates of all dimensions come back as they were; a dataset without a time dimension is treated as one with a single time; with a single column lat and lon are dropped and values kept; unstacking an unstacked model raises TypeError.", "quantifier": "every grid shape and field", "why_tests_cant": "index arithmetic for all shapes", "anchors": ["emc2/core/model.py:check_and_stack_time_lat_lon", "emc2/core/model.py:unstack_time_lat_lon"]}
{"id": "C37", "title": "Finalising masks only zeros of subcolumn fields", "statement": "finalize_subcol_fields turns exact zeros into NaN in the fields whose name contains sub_col or one of the caller's strings, changes nothing else and is idempotent.", "quantifier": "every dataset", "why_tests_cant": "all field sets and values", "anchors": ["emc2/core/model.py:finalize_subcol_fields"]}
{"id": "C38", "title": "Removing subcolumn fields deletes only the named cloud class", "statement": "remove_subcol_fields(cloud_class) deletes exactly the data fields whose name contains the cloud class and a subcolumn marker (sub_col, subcol or phase_mask); every other field, every coordinate and the number of subcolumns are kept, and repeating the call changes nothing.", "quantifier": "every dataset", "why_tests_cant": "all histories", "anchors": ["emc2/core/model.py:remove_subcol_fields"]}
{"id": "C39", "title": "Clamping to the lookup-table range", "statement": "set_array_to_valid_range returns values inside [min,max] of the table axis, leaves in-range values unchanged, and is monotone and idempotent.", "quantifier": "every value and axis", "why_tests_cant": "all reals", "anchors": ["emc2/core/model.py:set_array_to_valid_range"]}
{"id": "C40", "title": "Time cropping keeps exactly the half-open interval", "statement": "Cropping to (t0,t1) keeps, in order, exactly the samples with t0 <= t < t1 and is ignored when that would leave nothing.", "quantifier": "every time axis and range", "why_tests_cant": "all lists", "anchors": ["emc2/core/model.py:_crop_time_range"]}
{"id": "C41", "title": "Particle size distributions reproduce the mixing ratio", "statement": "lambda and N0 computed from q and N satisfy the gamma-distribution mass identity; mu stays in its bounds; lambda is NaN where q is 0.", "quantifier": "every positive q, N, density, mu", "why_tests_cant": "all reals", "anchors": ["emc2/simulator/psd.py:calc_mu_lambda"]}
{"id": "C42", "title": "Vertical regridding averages the overlapped layers", "statement": "A regridded value is the thickness-weighted mean of all old layers overlapping the new layer, hence between their min and max.", "quantifier": "every pair of increasing grids and data", "why_tests_cant": "all grids", "anchors": ["emc2/statistics_LLNL/statistical_aggregation.py:COSP_CHANGE_VERTICAL_GRID"]}
{"id": "C43", "title": "Lidar cloud fraction is a proportion", "statement": "calculate_lidar_CF is (number of subcolumns with SR>5)/(number with SR>0.01), in [0,1], NaN exactly when no subcolumn is usable.", "quantifier": "every SR field", "why_tests_cant": "all inputs", "anchors": ["emc2/statistics_LLNL/statistical_aggregation.py:calculate_lidar_CF"]}
{"id": "C44", "title": "CFAD rows are sub-distributions", "statement": "Each CFAD entry is the share of subcolumns in its bin; a row sums to the share of subcolumns inside the overall bin range (at most 1), and time averaging preserves the bound.", "quantifier": "every edges list, field and number of times", "why_tests_cant": "all inputs", "anchors": ["emc2/statistics_LLNL/statistical_aggregation.py:cal_cfad_radar_40levels"]}
{"id": "C45", "title": "Frequency and wavelength are consistent", "statement": "An instrument built from a frequency or a wavelength satisfies freq*wavelength = c in consistent units; with neither it raises ValueError.", "quantifier": "every positive frequency or wavelength", "why_tests_cant": "all reals", "anchors": ["emc2/core/instrument.py:Instrument.__init__"]}
{"id": "C46", "title": "The driver runs generation steps in dependency order", "statement": "make_simulated_data invokes generation and moment steps so that each step's required fields were produced by an earlier step, for every option combination; an unsupported instrument class raises ValueError.", "quantifier": "every option combination and class list", "why_tests_cant": "all combinations", "anchors": ["emc2/simulator/main.py:make_simulated_data"]}
{"id": "C47", "title": "Molecular transmittance is a proper transmittance", "statement": "The molecular two-way transmittance is in (0,1], 1 at the end the optical depth is counted from, and non-increasing away from it.", "quantifier": "every positive pressure/temperature profile, both directions", "why_tests_cant": "all profiles", "anchors": ["emc2/simulator/attenuation.py:calc_theory_beta_m"]}
{"id": "C48", "title": "Saving subcolumns keeps every subcolumn field", "statement": "Of the data variables, subcolumns_to_netcdf writes exactly those whose name contains one of the markers sub_col, subcol, strat_, conv_, _tot, _ext, _mask, _min, mpr, fpr, Times or the name of the time dimension; the coordinates along a written variable are written too.", "quantifier": "every dataset", "why_tests_cant": "all name sets", "anchors": ["emc2/core/model.py:subcolumns_to_netcdf"]}
{"id": "C49", "title": "Exact number of stratiform subcolumns in every case", "statement": "Below the top level: where both types are requested in all N subcolumns, all N hold both (whatever the convection); otherwise a type holds min(k - s, free) subcolumns, where k is its request, free the number of convection-free subcolumns and the shortfall s is 0 except when the other type is not requested at all and 0 < b <= k, b being the number of convection-free subcolumns holding both types just above: then s = b.", "quantifier": "every N, request profile, convective mask and random draw", "why_tests_cant": "exact count over all draws, masks and profiles", "anchors": ["emc2/simulator/subcolumn.py:set_stratiform_sub_col_frac", "emc2/simulator/subcolumn.py:_allocate_strat_sub_col"]}
{"id": "C50", "title": "Where chunked cloud-water distribution puts each column", "statement": "With subgrid variability and chunk size c>=1 over T times, set_q_n raises ValueError and leaves the object unchanged when c does not divide T-1; otherwise row 0 of the stored field is the serial result for the last time, and row 1+a*c+b (b<c) is the serial result for time T-1-(a+1)*c+b.", "quantifier": "every number of columns T and chunk size c>=1", "why_tests_cant": "all schedules", "anchors": ["emc2/simulator/subcolumn.py:set_q_n"]}
{"id": "C51", "title": "When variable cloud-water distribution returns", "statement": "The unchunked call with subgrid variability never returns exactly when some cell has two or more cloudy subcolumns but a mixing ratio at or below the threshold; in every other case it returns normally.", "quantifier": "every field, flag column and random draw", "why_tests_cant": "termination for all inputs", "anchors": ["emc2/simulator/subcolumn.py:set_q_n", "emc2/simulator/subcolumn.py:_distribute_cl_q_n"]}
{"id": "C52", "title": "A chunk size below one never returns", "statement": "If a stratiform, precipitation or variable q/N call (more than one subcolumn) succeeds serially, the same call in parallel with a chunk size of zero or less never returns.", "quantifier": "every model object and every chunk size <= 0", "why_tests_cant": "non-termination cannot be observed by a test", "anchors": ["emc2/simulator/subcolumn.py:set_stratiform_sub_col_frac", "emc2/simulator/subcolumn.py:set_precip_sub_col_frac", "emc2/simulator/subcolumn.py:set_q_n"]}
{"id": "C53", "title": "A generation call changes only its own outputs", "statement": "Every subcolumn-generation call, whether it succeeds or raises, leaves every dataset variable other than its documented outputs, the time dimension and the model settings as they were; over any history of calls a variable that no call writes keeps its value.", "quantifier": "every model object, argument, random draw and history of calls", "why_tests_cant": "all states, including those reached by failed calls", "anchors": ["emc2/simulator/subcolumn.py"]}
{"id": "C54", "title": "Full generation succeeds for every complete model object", "statement": "make_simulated_data with N>=2 subcolumns turns any model object that provides fractions in [0,1], mixing ratios and number concentrations for its classes into one where every class has stratiform flags, mixing ratio and number fields (and convective ones if convection is processed), all with N subcolumns, leaving every other variable unchanged: always under radiation logic and any schedule; under microphysics logic when not chunked and the liquid mixing ratio exceeds the threshold wherever the liquid fraction is positive.", "quantifier": "every complete model object, class list, N>=2, schedule and random draw", "why_tests_cant": "composition of all steps over all inputs", "anchors": ["emc2/simulator/main.py:make_simulated_data", "emc2/simulator/subcolumn.py"]}
{"id": "C55", "title": "Saved subcolumns can be loaded back", "statement": "Loading a file written by subcolumns_to_netcdf into the same dataset, with any of its fields and coordinates removed, restores every saved field with its values and leaves the other fields unchanged.", "quantifier": "every dataset and every subset of removed fields", "why_tests_cant": "all field sets and values", "anchors": ["emc2/core/model.py:subcolumns_to_netcdf", "emc2/core/model.py:load_subcolumns_from_netcdf"]}
{"id": "C56", "title": "COSP scattering ratio without particles", "statement": "With the default depolarisation coefficients the scattering ratio stored by lidar_emulate_cosp_phase for a cell in which no class backscatters or attenuates is not 1: it is at least 1.2 for one cloud type and 1.4 for two, namely 1 + n*(0.2994 + 409.9*b - 2 d/(1+d))/(1+d) for n cloud types, molecular attenuated backscatter b and molecular depolarisation d.", "quantifier": "every cell without particles, every atmosphere and class list", "why_tests_cant": "all profiles and class lists", "anchors": ["emc2/simulator/classification.py:lidar_emulate_cosp_phase"]}
{"id": "C57", "title": "With the empirical radar method only the last listed class attenuates", "statement": "After calc_radar_moments with the empirical method, the stored hydrometeor transmittance is the one obtained when the last class of hyd_types is listed alone; if that class is neither cl nor pl it is 1 in every cell.", "quantifier": "every model object, class list and dataset on which the call succeeds", "why_tests_cant": "all class lists and fields", "anchors": ["emc2/simulator/radar_moments.py:calc_radar_empirical", "emc2/simulator/attenuation.py:calc_radar_atm_attenuation"]}
{"id": "C58", "title": "Bulk radar: a gap in a cloud class hides all hydrometeor attenuation beyond it", "statement": "With the bulk radar method of the CESM and P3 families, if a liquid class (or P3 ice) is absent from a subcolumn at some level, then at every level farther from the instrument the stored hydrometeor transmittance of that subcolumn is NaN and the attenuated reflectivity is the unattenuated one reduced by gas absorption only.", "quantifier": "every class list, dataset, subcolumn and pair of levels", "why_tests_cant": "all gap positions and fields", "anchors": ["emc2/simulator/radar_moments.py:calc_radar_bulk", "emc2/simulator/radar_moments.py:accumulate_attenuation"]}
{"id": "C59", "title": "Stored oxygen attenuation does not depend on radar frequency", "statement": "For every radar frequency of 1 GHz and above (Instrument.freq is in Hz) the oxygen attenuation coefficient is, within one part in a million, the limit of the published formula for infinite frequency; on the 60 GHz oxygen line near the surface that limit is below 0.02 dB/km where the formula gives more than 60 dB/km.", "quantifier": "every frequency from 1 GHz, pressure up to 2000 hPa and temperature from 100 K", "why_tests_cant": "all frequencies and atmospheres", "anchors": ["emc2/simulator/attenuation.py:calc_radar_atm_attenuation", "emc2/core/instrument.py"]}
{"id": "C60", "title": "A radar calculation never amplifies the signal", "statement": "For non-negative water contents the hydrometeor and gas transmittances stored by calc_radar_moments are in (0,1], 1 at the instrument and non-increasing away from it, whichever method is used.", "quantifier": "every model object, class list, method and direction", "why_tests_cant": "all profiles, methods and directions", "anchors": ["emc2/simulator/radar_moments.py:calc_radar_moments", "emc2/simulator/radar_moments.py:accumulate_attenuation"]}
{"id": "C61", "title": "A classified simulation needs the HSRL", "statement": "make_simulated_data with do_classify=True on a lidar whose instrument_str is not HSRL never returns a result, for any dataset and options, although the same call without classification can succeed.", "quantifier": "every lidar instrument, model object, option combination and dataset", "why_tests_cant": "all instruments and option combinations", "anchors": ["emc2/simulator/main.py:make_simulated_data", "emc2/simulator/classification.py:lidar_emulate_cosp_phase"]}
{"id": "C62", "title": "Droplet shape parameter uses the concentration in cm-3", "statement": "calc_mu_lambda computes the cloud-liquid shape parameter from the relation of Martin et al. (1994) at the number concentration in cm-3, the unit in which the generated number fields are stored and converted to m-3 for N_0.", "quantifier": "every number concentration, bounds and model", "why_tests_cant": "all concentrations", "anchors": ["emc2/simulator/psd.py:calc_mu_lambda", "emc2/simulator/subcolumn.py:set_q_n"]}
{"id": "C63", "title": "Regridded layers lie above their levels", "statement": "The half levels handed to the vertical regridding place the value of every model level but the last in a layer that lies entirely above that level's height.", "quantifier": "every increasing height profile", "why_tests_cant": "all profiles", "anchors": ["emc2/statistics_LLNL/statistical_aggregation.py:get_ATB_ATBmol", "emc2/statistics_LLNL/statistical_aggregation.py:COSP_CHANGE_VERTICAL_GRID"]}
{"id": "C64", "title": "Scattering ratio below the surface", "statement": "In a new layer below the lowest half level calculate_SR returns 1 for every subcolumn and dataset, so calculate_lidar_CF reports a cloud fraction of 0 there and not a missing value.", "quantifier": "every profile, new grid and data", "why_tests_cant": "all profiles and grids", "anchors": ["emc2/statistics_LLNL/statistical_aggregation.py:calculate_SR", "emc2/statistics_LLNL/statistical_aggregation.py:calculate_lidar_CF"]}
{"id": "C65", "title": "Missing values in regridded fields", "statement": "A new layer whose overlapped layers are all missing is missing; one with at least one value is a number, the mean in which every missing layer counts as -1e30.", "quantifier": "every grid, data and pattern of missing values", "why_tests_cant": "all patterns", "anchors": ["emc2/statistics_LLNL/statistical_aggregation.py:get_regridded_ze_att_tot", "emc2/statistics_LLNL/statistical_aggregation.py:calculate_SR"]}
{"id": "C66", "title": "Regridded reflectivity is a mean of decibels", "statement": "get_regridded_ze_att_tot averages dBZ values directly; the result is at most, and in general less than, the reflectivity of the mean of the linear values.", "quantifier": "every grid and reflectivity field", "why_tests_cant": "all grids and data", "anchors": ["emc2/statistics_LLNL/statistical_aggregation.py:get_regridded_ze_att_tot"]}
{"id": "C67", "title": "Molecular fields agree with each other", "statement": "The molecular extinction and backscatter per volume are the cross-sections per molecule times the number density, and their ratio is 4*pi over the phase function at 180 degrees, at every level and wavelength.", "quantifier": "every atmosphere, wavelength and direction", "why_tests_cant": "all atmospheres and wavelengths", "anchors": ["emc2/simulator/attenuation.py:calc_theory_beta_m"]}
{"id": "C68", "title": "Mass extinction field is ten thousand times too large", "statement": "The stored kappa times the density of air (kg m-3) is 10000 times the stored extinction (m-1), so kappa is not the mass extinction cross-section in m2 kg-1.", "quantifier": "every atmosphere and wavelength", "why_tests_cant": "all atmospheres and wavelengths", "anchors": ["emc2/simulator/attenuation.py:calc_theory_beta_m"]}
{"id": "C69", "title": "A lidar call counts molecular attenuation from the instrument", "statement": "The molecular transmittance used by calc_lidar_moments is 1 at the end from which the caller asks optical depth to be counted (OD_from_sfc).", "quantifier": "every model object, option and method", "why_tests_cant": "all options", "anchors": ["emc2/simulator/lidar_moments.py:calc_lidar_moments", "emc2/simulator/attenuation.py:calc_theory_beta_m"]}
{"id": "C70", "title": "Reading an E3SM or CESM2 file keeps values with their grid box", "statement": "Constructing an E3SM/CESM2 model object from a complete file succeeds; every field other than number, radius and derived fields, and the height coordinate, has the file's value for each time, level, latitude and longitude of the file, at the reversed level and, for regional files, at the column's position in the stacked dimension.", "quantifier": "every complete file with any number of times, levels, latitudes and longitudes (none, one or several columns), ice and rain options", "why_tests_cant": "all file sizes, dimension orders and values", "anchors": ["emc2/core/model.py:E3SMv1", "emc2/core/model.py:check_and_stack_time_lat_lon", "emc2/core/model.py:permute_dims_for_processing"]}
{"id": "C71", "title": "Units of E3SM and CESM2 fields after reading", "statement": "After reading, pressure is (P0*hyam + PS*hybm)/100, air density is p*100/(287.058*T), the number field of every class in hyd_types is the file's number per kg times density divided by 1e6 (converted exactly once), precipitation radii are multiplied by 0.5e6 and zero radii become NaN, in every grid box.", "quantifier": "every complete file and every class list", "why_tests_cant": "all files and boxes", "anchors": ["emc2/core/model.py:E3SMv1", "emc2/core/model.py:_calc_air_density"]}
{"id": "C72", "title": "P3 ice fields after reading", "statement": "With the P3 scheme the in-cloud ice number is number/fraction*1e6, the rime fraction is rime mass over ice mass, the rime density is rime mass over rime volume (0 where the rime fraction is 0) and qi_norm is in-cloud ice mass over in-cloud number, in every grid box.", "quantifier": "every complete file with P3 fields", "why_tests_cant": "all files and boxes", "anchors": ["emc2/core/model.py:E3SMv1"]}
{"id": "C73", "title": "Truncated P3 ice is removed on reading", "statement": "With the P3 scheme, ice and rime mass at or below 1e-18 are replaced by missing values when the file is read.", "quantifier": "every complete file with P3 fields", "why_tests_cant": "all values", "anchors": ["emc2/core/model.py:E3SMv1"]}
{"id": "C74", "title": "Empirical lidar optics of a class", "statement": "After a successful empirical call of calc_lidar_moments, in every cell the extinction of cloud and rain water is 3*W/(2*rho*re) and that of ice classes (W/(0.00532*(T+90)^2.55))^(1/(1.31*exp(0.0047*T))), with W = q*p/(R_d*T) from the class's own mixing ratio and the cell's pressure and temperature; the backscatter is the extinction divided by the class's lidar ratio.", "quantifier": "every model object, class list, cloud type and dataset", "why_tests_cant": "all values and class lists", "anchors": ["emc2/simulator/lidar_moments.py:calc_lidar_empirical"]}
{"id": "C75", "title": "Empirical radar reflectivity of a class", "statement": "After a successful empirical call of calc_radar_moments the reflectivity of a class (dBZ) is that of 0.031*W^1.56 for cloud water, (1000*W/3.4)^1.75 for rain and the Hogan et al. (2006) formula of the radar's band for the others, W in g m-3, and missing where there is none of the class.", "quantifier": "every model object, class list, frequency, cloud type and dataset", "why_tests_cant": "all values and frequencies", "anchors": ["emc2/simulator/radar_moments.py:calc_radar_empirical"]}
{"id": "C76", "title": "Bulk lidar optics of a class", "statement": "After a successful bulk call of calc_lidar_moments, at every level but the uppermost, extinction and backscatter of a class are the efficiencies of its table (linearly interpolated at the effective radius, or at the size parameters) times the projected area 3*W/(4*rho*re) where the class is present, with W the layer's mass q*|dp|/g over its depth, and 0 elsewhere.", "quantifier": "every model object, class list, cloud type, table and dataset", "why_tests_cant": "all values and tables", "anchors": ["emc2/simulator/lidar_moments.py:calc_lidar_bulk"]}
{"id": "C77", "title": "Bulk radar reflectivity of a class", "statement": "After a successful bulk call of calc_radar_moments, at every level but the uppermost, the reflectivity of a class is the dBZ value of Q_back*A*lambda^4/(K_w*pi^5)*1e-6, with the same efficiency and projected area as the bulk lidar method, where the class is present, and missing elsewhere.", "quantifier": "every model object, class list, cloud type, table and dataset", "why_tests_cant": "all values and tables", "anchors": ["emc2/simulator/radar_moments.py:calc_radar_bulk"]}
{"id": "C78", "title": "Microphysics lidar optics of a class", "statement": "After a successful calc_lidar_moments call with the microphysics approach, in every cell that holds a class, its extinction and backscatter are the integrals (trapezoidal rule over the single-particle table) of the cross-sections over the gamma size distribution whose number and mass are those of the cell; they are 0 where there is no condensate and never negative.", "quantifier": "every model object, table, class list, dataset and cell", "why_tests_cant": "all tables, values and shapes", "anchors": ["emc2/simulator/lidar_moments.py:calc_lidar_micro", "emc2/simulator/psd.py:calc_mu_lambda"]}
{"id": "C79", "title": "Microphysics lidar totals", "statement": "A microphysics lidar call stores as total extinction, backscatter and optical depth the sum over its classes (missing counted as 0) added to the totals already in the dataset; so calling it again succeeds, leaves the class fields unchanged and adds every class a second time to the totals.", "quantifier": "every model object, class list, dataset and history of one or two calls", "why_tests_cant": "all histories", "anchors": ["emc2/simulator/lidar_moments.py:calc_lidar_micro"]}
{"id": "C80", "title": "Order of classes in a microphysics lidar call", "statement": "If a microphysics lidar call succeeds for a list of classes it succeeds for every permutation of the list, with the same class fields and totals.", "quantifier": "every list of classes and permutation", "why_tests_cant": "all permutations", "anchors": ["emc2/simulator/lidar_moments.py:calc_lidar_micro"]}
{"id": "C81", "title": "Chunks and parallelism do not change moments", "statement": "calc_lidar_moments and calc_radar_moments have the same outcome (result, exception and stored fields) for every chunk length and for serial and parallel execution, with every method.", "quantifier": "every schedule, method and input", "why_tests_cant": "all schedules", "anchors": ["emc2/simulator/lidar_moments.py:calc_lidar_micro", "emc2/simulator/radar_moments.py:calc_radar_micro"]}
{"id": "C82", "title": "Microphysics radar moments of a class", "statement": "After a successful calc_radar_moments call with the microphysics approach, in every cell that holds a class, reflectivity is the integral of the backscatter cross-section over the size distribution with the cell's number and mass (times lambda^4/(K_w pi^5)), Doppler velocity and spectral width are the mean and standard deviation of the density-corrected fall velocity weighted by backscatter; velocity lies in the range of the particles' velocities, width is at most that range; reflectivity is missing where there is no condensate.", "quantifier": "every model object, table, class list, dataset and cell", "why_tests_cant": "all tables, values and shapes", "anchors": ["emc2/simulator/radar_moments.py:calc_radar_micro", "emc2/simulator/psd.py:calc_velocity_nssl"]}
{"id": "C83", "title": "Total Doppler velocity", "statement": "The total Doppler velocity of a microphysics radar call is the mean of the velocities of all its classes weighted by their (linear) reflectivities.", "quantifier": "every class list, dataset and cell", "why_tests_cant": "all class lists", "anchors": ["emc2/simulator/radar_moments.py:calc_radar_micro"]}
{"id": "C84", "title": "Microphysics radar total reflectivity", "statement": "A microphysics radar call stores as total reflectivity the decibel value of the sum of the linear class reflectivities added to the total found in the dataset; a total found from an earlier call is in decibels and the linear sum is added to it as it is, while class fields and total velocity are those of the first call.", "quantifier": "every class list, dataset and history of one or two calls", "why_tests_cant": "all histories", "anchors": ["emc2/simulator/radar_moments.py:calc_radar_micro"]}
{"id": "C85", "title": "Order of classes in a microphysics radar call", "statement": "The order in which the classes are listed does not change the outcome of a microphysics radar call: class fields, total reflectivity and total velocity.", "quantifier": "every list of classes and permutation", "why_tests_cant": "all permutations", "anchors": ["emc2/simulator/radar_moments.py:calc_radar_micro"]}
{"id": "C86", "title": "Hydrometeor attenuation in the microphysics radar method", "statement": "The two-way transmittance due to hydrometeors stored by a microphysics radar call is that of the last listed class alone (exp of minus twice the extinction of that class integrated from the instrument); every class listed before it leaves no trace.", "quantifier": "every class list, dataset and direction", "why_tests_cant": "all class lists", "anchors": ["emc2/simulator/radar_moments.py:calc_radar_micro", "emc2/simulator/radar_moments.py:accumulate_attenuation"]}
{"id": "C87", "title": "NSSL microphysics and the radar", "statement": "With the NSSL scheme a microphysics radar call succeeds only if cloud liquid is the only class.", "quantifier": "every class list and dataset", "why_tests_cant": "all class lists", "anchors": ["emc2/simulator/radar_moments.py:calc_radar_micro", "emc2/simulator/psd.py:calc_velocity_nssl"]}
{"id": "C88", "title": "Loading saved subcolumns never replaces a value", "statement": "After load_subcolumns_from_netcdf every value that was not missing is unchanged, missing values are those of the file, fields only in the file are added and no other field appears; a file that contradicts a stored value makes the call fail.", "quantifier": "every dataset and file", "why_tests_cant": "all datasets and patterns of missing values", "anchors": ["emc2/core/model.py:load_subcolumns_from_netcdf"]}
{"id": "C89", "title": "Reading part of a file", "statement": "Reading E3SM/CESM2 output with a time range gives what reading the file cut to that range gives: exactly the times t with start <= t < end are there, in order, and every field keeps the file's value at each of them.", "quantifier": "every file, option and time range", "why_tests_cant": "all files, ranges and shapes", "anchors": ["emc2/core/model.py:E3SMv1", "emc2/core/model.py:_crop_time_range"]}
{"id": "C90", "title": "Interpolation in the P3 table", "statement": "A P3 table lookup is trilinear between the eight table values around the point, equals the table at its nodes, lies between the smallest and largest table value, does not depend on which cell a point on a cell face is counted to, and is missing off the grid.", "quantifier": "every table with increasing axes and every point", "why_tests_cant": "all tables and points", "anchors": ["emc2/core/model.py:interp_p3_ice_psd_params_to_grid"]}
{"id": "C91", "title": "P3 ice fields of E3SMv3", "statement": "Reading an E3SMv3 file with a P3 table succeeds; rime fraction, rime density and normalised mass are those of the file brought into the range of the table axes, the slope of the size distribution is the table's at that point, missing where an input is missing, and every other field is as read without a table.", "quantifier": "every file, table and grid box", "why_tests_cant": "all files and tables", "anchors": ["emc2/core/model.py:E3SMv3", "emc2/core/model.py:limit_input_data_to_p3_lut_range", "emc2/core/model.py:interp_p3_ice_psd_params_to_grid"]}
{"id": "C92", "title": "P3 size distribution of one particle", "statement": "For a table of positive slopes the stored slope, shape and normalised intercept of a grid box make a gamma size distribution that integrates to exactly one particle; the shape lies in 0..6 and the slope between the table's extremes; all three are missing where an input is missing.", "quantifier": "every file, table and grid box", "why_tests_cant": "integrals over all sizes", "anchors": ["emc2/core/model.py:calc_mu_n0_from_lambda"]}
{"id": "C93", "title": "Refractive index of water and ice", "statement": "The complex refractive index computed for liquid water is, for every wavelength and every temperature from -40 to 40 C, the root with positive real and imaginary part of the double-Debye permittivity; for ice of any positive density it is the root of its permittivity and depends on density alone; the dielectric factor |K|^2 lies strictly between 0 and 1.", "quantifier": "every wavelength, temperature in the range and density", "why_tests_cant": "all real arguments", "anchors": ["emc2/scattering/ref_index.py:calc_microwave_ref_index", "emc2/scattering/ref_index.py:calc_microwave_ref_index_ice"]}
{"id": "C94", "title": "Cross-sections of computed tables", "statement": "In a table computed by scat_properties_water or scat_properties_ice every cross-section (extinction, scattering, backscattering) is the efficiency of the same name times the geometric cross-section of the particle.", "quantifier": "every diameter list, wavelength, temperature, pressure and result of the Mie code", "why_tests_cant": "all results of an external code", "anchors": ["emc2/scattering/mie_scattering.py:scat_properties_water", "emc2/scattering/mie_scattering.py:scat_properties_ice"]}
{"id": "C95", "title": "What computed tables hold", "statement": "In a table computed for water the scattering and backscattering cross-sections are exchanged; the size parameter of both tables is a thousand times pi times diameter over wavelength; diameters given in micrometres come out in metres, one row per diameter, between the smallest and the largest requested.", "quantifier": "every diameter list, wavelength, temperature, pressure and Mie code returning the requested diameters", "why_tests_cant": "all results of an external code", "anchors": ["emc2/scattering/mie_scattering.py:scat_properties_water", "emc2/scattering/mie_scattering.py:scat_properties_ice"]}
{"id": "C96", "title": "Units of tables read from files", "statement": "Every row of a Mie, single-particle or bulk table file is converted to metres (backscatter per steradian, radius to diameter, effective diameter to effective radius) with the right factor for each column, so that cross-section = efficiency x area in the file carries over; an unknown format fails.", "quantifier": "every file content", "why_tests_cant": "all rows and values", "anchors": ["emc2/io/load_mie_file.py:load_mie_file", "emc2/io/load_scat_file.py:load_scat_file", "emc2/io/load_bulk_scat_file.py:load_bulk_scat_file"]}
{"id": "C97", "title": "Units of the P3 table", "statement": "Loading the P3 table converts each area, volume and length column exactly once, adds the diameter in metres, replaces a missing fall velocity by the smallest known one, keeps known velocities and leaves every other column unchanged.", "quantifier": "every table content", "why_tests_cant": "all rows and columns", "anchors": ["emc2/core/instrument.py:load_instrument_scat_files"]}
{"id": "C98", "title": "Fall velocities of the NSSL scheme", "statement": "For every class name in any capitalisation the fall velocity is finite, not negative, does not decrease with size or density, and stays below 10 m/s for rain; unknown classes do not fall; graupel lighter than 798 kg m-3 falls with the constant drag coefficient 1.2; a missing diameter or density gives a missing velocity.", "quantifier": "every class name, diameter and density", "why_tests_cant": "all real arguments", "anchors": ["emc2/simulator/psd.py:calc_velocity_nssl"]}
{"id": "C99", "title": "Arrangement of the lidar phase thresholds", "statement": "The phase thresholds shipped with the depolarisation lidars are arranged from the lowest to the highest for every depolarisation ratio, as the documentation requires; so at equal depolarisation a stronger signal never gets a weaker class, a cell is classified exactly if it reaches the ice threshold, and is liquid exactly if it reaches the liquid one.", "quantifier": "every depolarisation ratio and backscatter", "why_tests_cant": "all real arguments", "anchors": ["emc2/core/instruments.py:RL", "emc2/core/instruments.py:HSRL", "emc2/core/instruments.py:CALIOP", "emc2/simulator/classification.py:lidar_classify_phase"]}
{"id": "C100", "title": "Tables of the shipped instruments", "statement": "Every shipped instrument, for every accepted site in any capitalisation, either temperature and any further arguments, gets all its tables from files that are shipped; supercooled-water tables are used exactly on request and outside the ultraviolet and visible, the DHARMA ice table exactly if 'DHARMA' is among the further arguments; an unknown site fails with ValueError, and a string in place of the temperature switch with TypeError.", "quantifier": "every instrument, site and argument list", "why_tests_cant": "all argument lists", "anchors": ["emc2/core/instrument.py:load_instrument_scat_files", "emc2/core/instruments.py:KAZR", "emc2/core/instruments.py:RL"]}
{"id": "C101", "title": "Reading ModelE output", "statement": "Reading a ModelE file keeps every time step of the requested range [start, end) and no other, keeps every field value at its grid box (at its column when latitude, longitude and time are stacked), and adds the density of dry air from the pressure and temperature of the same box; a range that is not datetime64 fails with RuntimeError; a range without a step reads the whole file; the vertical dimension is 'level' exactly if there is a coordinate 'level' and none named 'p'.", "quantifier": "every file with temperature and pressure over time and height, every time range", "why_tests_cant": "all sizes, values and ranges", "anchors": ["emc2/core/model.py:ModelE", "emc2/core/model.py:_crop_time_range", "emc2/core/model.py:check_and_stack_time_lat_lon"]}
{"id": "C102", "title": "Reading DHARMA output", "statement": "Reading a DHARMA file with any bounding box and time range keeps exactly the grid boxes whose x and y lie in the closed box and the steps in [start, end), in order, with every field value at its grid box, and adds the density of dry air; a range that is not datetime64 fails with RuntimeError.", "quantifier": "every file, time dimension name, box on ascending coordinates and time range", "why_tests_cant": "all sizes, values, boxes and ranges", "anchors": ["emc2/core/model.py:DHARMA", "emc2/core/model.py:_crop_bounding_box_x_y"]}
{"id": "C103", "title": "Reading WRF output", "statement": "Reading a WRF file yields, for every kept grid box, pressure as the sum of perturbation and base pressure in hPa, the temperature, height and humidity of the box, the density of dry air, and for every class of the scheme its mass, its number per cm3, zero convective mass and fraction, and a stratiform fraction that is 1 exactly where the mass exceeds the cutoff (or the file's cloud fraction for NU-WRF clouds); an unknown scheme fails with KeyError; a time range is compared with step numbers.", "quantifier": "every file on the mass grid, scheme in any capitalisation, cutoff, option, box and range", "why_tests_cant": "all sizes, values and options", "anchors": ["emc2/core/model.py:WRF", "emc2/core/model.py:_crop_bounding_box"]}
{"id": "C104", "title": "WRF bounding box", "statement": "Reading a WRF file with a bounding box reads all grid boxes inside it.", "quantifier": "every file with latitude by row and longitude by column, every box", "why_tests_cant": "all coordinates and boxes", "anchors": ["emc2/core/model.py:_crop_bounding_box"]}
{"id": "C105", "title": "WRF particle densities of the NSSL scheme", "statement": "Reading a WRF file with the NSSL scheme, named in any capitalisation as the documentation has it, yields the densities of graupel and hail as mass over volume, 900 kg m-3 where that is not a number.", "quantifier": "every file and capitalisation", "why_tests_cant": "all values and names", "anchors": ["emc2/core/model.py:WRF"]}
{"id": "C106", "title": "DHARMA radius fields", "statement": "Every class of a DHARMA model has its own effective radius field.", "quantifier": "every class and option", "why_tests_cant": "every class under every option", "anchors": ["emc2/core/model.py:DHARMA"]}
{"id": "C107", "title": "Appended strings are taken off names", "statement": "Removing appended strings from a file whose latitude and longitude dimensions carry them renames these dimensions, and every coordinate and field that carries them, to their clean names; sizes and values stay, and no field is lost.", "quantifier": "every file, every pair of appended strings", "why_tests_cant": "all names, sizes and values", "anchors": ["emc2/core/model.py:remove_appended_str"]}
{"id": "C108", "title": "Sub-domains are put side by side", "statement": "Removing appended strings from a file of several sub-domains joins each field along the clean dimension: column i of sub-domain j is at the place after all columns of the sub-domains before it; the new coordinate counts the columns, the appended fields are gone, everything else is unchanged. A field missing in one sub-domain is an error; a file without sub-domains stays as it is.", "quantifier": "every file, number of sub-domains and fields", "why_tests_cant": "any number and size of sub-domains", "anchors": ["emc2/core/model.py:remove_appended_str"]}
{"id": "C109", "title": "Means and spreads of a display leave missing values out", "statement": "The mean of a set of values is the arithmetic mean of the numbers among them and the spread their standard deviation: independent of order, between the least and greatest value, zero exactly when all are equal, NaN if there is no number. With geometric averaging the n-th power of the mean is the product of the n positive finite values, the mean is at most the arithmetic one, and the geometric deviation is 1 exactly when all are equal.", "quantifier": "every list of values, any length, NaN anywhere", "why_tests_cant": "all lengths and values", "anchors": ["emc2/plotting/subcol_display.py:SubcolumnDisplay.calc_mean_and_sd"]}
{"id": "C110", "title": "A mean profile averages every subcolumn and time asked for", "statement": "The profile drawn has one point per level, at the height (or pressure) averaged over the times asked for (all, the nearest to one time, or those from the first up to but excluding the last), with mean and band of all unmasked numbers of that level over all subcolumns and these times; reflectivities are averaged in linear units. Instrument profiles do the same over time, against the first of range, altitude and height in the file.", "quantifier": "every field, number of subcolumns, times and levels, time choice, mask without infinite visible values", "why_tests_cant": "all sizes and selections", "anchors": ["emc2/plotting/subcol_display.py:SubcolumnDisplay.plot_subcolumn_mean_profile", "emc2/plotting/subcol_display.py:SubcolumnDisplay.plot_instrument_mean_profile"]}
{"id": "C111", "title": "A mask hides exactly the cells it marks", "statement": "A mask passed to a mean profile leaves out exactly the cells with values above zero; a mask that marks no cell changes nothing.", "quantifier": "every mask and field", "why_tests_cant": "all masks and values", "anchors": ["emc2/plotting/subcol_display.py:SubcolumnDisplay.plot_subcolumn_mean_profile"]}
{"id": "C112", "title": "The band of a mean profile surrounds its line and follows the units", "statement": "The line lies inside the band; multiplying the field by a constant (a change of units) multiplies line and band by it; if all values are equal the band has no width.", "quantifier": "every set of values, every positive factor", "why_tests_cant": "all values", "anchors": ["emc2/plotting/subcol_display.py:SubcolumnDisplay.plot_subcolumn_mean_profile", "emc2/plotting/subcol_display.py:SubcolumnDisplay.calc_mean_and_sd"]}
{"id": "C113", "title": "A mean profile can be drawn at one time", "statement": "Asking for the mean profile of any field at a single time draws the profile averaged over subcolumns at the nearest time in the data.", "quantifier": "every field, time and number of subcolumns", "why_tests_cant": "all sizes", "anchors": ["emc2/plotting/subcol_display.py:SubcolumnDisplay.plot_subcolumn_mean_profile"]}
{"id": "C114", "title": "A display shows the place asked for and leaves the model as it was", "statement": "Displaying a model with latitude and longitude dimensions shows every field at the latitude and longitude asked for: by index (also negative), by nearest value, or the first by default; an index out of range is an error; the model given is not changed. A later switch shows the new place.", "quantifier": "every model, every choice", "why_tests_cant": "all models, indices and values", "anchors": ["emc2/plotting/subcol_display.py:SubcolumnDisplay.__init__", "emc2/plotting/subcol_display.py:SubcolumnDisplay._switch_lat_lon"]}
{"id": "C115", "title": "Signals handed to the statistics belong to their cell", "statement": "For every subcolumn, time, level and column the returned total attenuated backscatter and reflectivity are the simulated ones of that cell, the molecular signal is molecular backscatter times two-way transmittance there, heights are in km and half levels lie halfway to the next level (the last level itself at the end).", "quantifier": "every simulated dataset on columns", "why_tests_cant": "all sizes and values", "anchors": ["emc2/statistics_LLNL/statistical_aggregation.py:get_radar_lidar_signals", "emc2/statistics_LLNL/statistical_aggregation.py:get_ATB_ATBmol"]}
{"id": "C116", "title": "A time-height display shows each value at its time and level", "statement": "A time-height display of a field (of the subcolumn asked for, or of a field without subcolumns) or of an instrument has one cell per time and level; the cell at a time and level holds the value of that time and level, drawn at that time and at the level's height averaged over the times (or its label). With a mask of the same shape exactly the values whose mask is not zero or below are left out. The colour limits asked for are used.", "quantifier": "every field, number of times and levels, subcolumn index, mask, colour limits, with a title or dates", "why_tests_cant": "all sizes, values and masks", "anchors": ["emc2/plotting/subcol_display.py:SubcolumnDisplay.plot_subcolumn_timeseries", "emc2/plotting/subcol_display.py:SubcolumnDisplay.plot_instrument_timeseries"]}
{"id": "C117", "title": "Hatching marks exactly the values a mask would hide", "statement": "With hatching, all values are shown and exactly those hidden by the mask otherwise are hatched; without a mask nothing is hatched; a mask of another shape is treated the same with and without hatching.", "quantifier": "every mask and hatching style", "why_tests_cant": "all masks", "anchors": ["emc2/plotting/subcol_display.py:SubcolumnDisplay.plot_subcolumn_timeseries"]}
{"id": "C118", "title": "Displays work without optional arguments", "statement": "A time-height display needs neither a title nor colour limits, also with logarithmic colours.", "quantifier": "every field, every choice of optional arguments", "why_tests_cant": "all combinations", "anchors": ["emc2/plotting/subcol_display.py:SubcolumnDisplay.plot_subcolumn_timeseries", "emc2/plotting/subcol_display.py:SubcolumnDisplay.plot_column_input_q_timeseries", "emc2/plotting/subcol_display.py:SubcolumnDisplay.plot_instrument_timeseries"]}
{"id": "C119", "title": "A single profile shows all subcolumns at the nearest time", "statement": "The display of a single time shows every subcolumn and level of the field at the time nearest to the one asked for, at the heights of that time, without the masked values.", "quantifier": "every field, time asked for, number of subcolumns, mask", "why_tests_cant": "all times and sizes", "anchors": ["emc2/plotting/subcol_display.py:SubcolumnDisplay.plot_single_profile"]}
{"id": "C120", "title": "Mixing ratios are shown in g/kg at heights in km", "statement": "The display of an input mixing ratio shows 1000 times the field, at a thousandth of the heights in metres; on pressure levels the labels are pressures.", "quantifier": "every field and height grid", "why_tests_cant": "all values", "anchors": ["emc2/plotting/subcol_display.py:SubcolumnDisplay.plot_column_input_q_timeseries"]}
{"id": "C121", "title": "Displays of regridded fields show the values of the column asked for", "statement": "The displays of regridded cloud fraction and scattering ratio show, for every time and level, the value of the column (and subcolumn) asked for at the given height; cloud fractions of zero or below and ratios of zero are left blank. This includes a single time or level.", "quantifier": "every array, grid, column and subcolumn index", "why_tests_cant": "all sizes and values", "anchors": ["emc2/plotting/subcol_display.py:SubcolumnDisplay.plot_regridded_CF_timeseries", "emc2/plotting/subcol_display.py:SubcolumnDisplay.plot_regridded_SR_timeseries"]}
{"id": "C122", "title": "Displaying an array does not change it", "statement": "After any sequence of displays of regridded fields the arrays passed in hold the values they held before.", "quantifier": "every array and every sequence of displays", "why_tests_cant": "histories of displays of any length", "anchors": ["emc2/plotting/subcol_display.py:SubcolumnDisplay.plot_regridded_CF_timeseries", "emc2/plotting/subcol_display.py:SubcolumnDisplay.plot_regridded_SR_timeseries"]}
{"id": "C123", "title": "Each class of a mask has its own colour, tick and label", "statement": "The colour bar of a classification mask has one colour per class (and one for clear unless zeros are blank): different classes get different colours, every class lies inside the colour range, and the tick at a class number carries the label of that class.", "quantifier": "every legend, any number of classes", "why_tests_cant": "all lengths", "anchors": ["emc2/plotting/subcol_display.py:SubcolumnDisplay.change_plot_to_class_mask"]}
{"id": "C124", "title": "Displays of every subcolumn place every value at its time and height", "statement": "Displays of all subcolumns show for every time, subcolumn and level the value of that cell (missing values blank; mixing ratios in g/kg) at the height of that time and level; subcolumns of a time are drawn in order, after the previous time and not after their own.", "quantifier": "every number of subcolumns, at least two times, every height grid and field", "why_tests_cant": "all sizes and values", "anchors": ["emc2/statistics_LLNL/statistical_plots.py:plot_every_subcolumn_timeseries_radarlidarsignal", "emc2/statistics_LLNL/statistical_plots.py:plot_every_subcolumn_timeseries_nonatt_radarlidarsignal", "emc2/statistics_LLNL/statistical_plots.py:plot_every_subcolumn_timeseries_SR", "emc2/statistics_LLNL/statistical_plots.py:plot_every_subcolumn_timeseries_mixingratio", "emc2/statistics_LLNL/statistical_plots.py:plot_every_subcolumn_timeseries_mixingratio_cloud_precipitation"]}
{"id": "C125", "title": "Displaying every subcolumn does not change the model", "statement": "After displaying all subcolumns the fields of the model hold the values they held before.", "quantifier": "every model and display", "why_tests_cant": "all models", "anchors": ["emc2/statistics_LLNL/statistical_plots.py:plot_every_subcolumn_timeseries_radarlidarsignal", "emc2/statistics_LLNL/statistical_plots.py:plot_every_subcolumn_timeseries_mixingratio"]}
{"id": "C126", "title": "Colour limits asked for are used", "statement": "Displays of all subcolumns and of CFADs use the colour limits passed as parameters or as vmin and vmax.", "quantifier": "every display and limit", "why_tests_cant": "all combinations", "anchors": ["emc2/statistics_LLNL/statistical_plots.py:plot_every_subcolumn_timeseries_radarlidarsignal", "emc2/statistics_LLNL/statistical_plots.py:plot_every_subcolumn_timeseries_nonatt_radarlidarsignal", "emc2/statistics_LLNL/statistical_plots.py:plot_radar_CFAD", "emc2/statistics_LLNL/statistical_plots.py:plot_lidar_SR_CFAD"]}
{"id": "C127", "title": "A CFAD is drawn over its bins and heights", "statement": "A CFAD display has one cell per bin and level holding its frequency, drawn between the edges of the bin (equally wide for scattering ratio) and around the height given for the level.", "quantifier": "every CFAD, bins and height grid", "why_tests_cant": "all sizes and values", "anchors": ["emc2/statistics_LLNL/statistical_plots.py:plot_radar_CFAD", "emc2/statistics_LLNL/statistical_plots.py:plot_lidar_SR_CFAD"]}
{"id": "C128", "title": "Saved CFADs can be read back", "statement": "The saved dataset holds the given CFADs, cloud fraction and radar bins, and everything the model's dataset held; saving succeeds whenever the sizes agree.", "quantifier": "every dataset, array and bins", "why_tests_cant": "all sizes and values", "anchors": ["emc2/statistics_LLNL/statistical_output.py:save_cfads_to_nc"]}
{"id": "C129", "title": "P3 ice in the bulk method", "statement": "In the bulk (radiation-scheme) method the ice of a P3 model gives extinction and backscatter equal to the efficiencies tabulated at the rime fraction, rime density and mean particle mass of the point, times the projected area of the ice in the cell (tabulated area per particle times their number, or water content over effective radius), where the subcolumn holds ice, and none elsewhere; the reflectivity follows from the backscatter.", "quantifier": "every dataset, table, cell, and option", "why_tests_cant": "all inputs", "anchors": ["emc2/simulator/lidar_moments.py:calc_lidar_bulk", "emc2/simulator/radar_moments.py:calc_radar_bulk"]}
{"id": "C130", "title": "P3 ice in the microphysics method", "statement": "In the microphysics method the ice of a P3 model gives the integrals over particle size of the single-particle cross-sections (of the Mie table or of the P3 table at the rime fraction and density of the point) weighted with the size distribution stored with it; likewise reflectivity, mean velocity and spectral width; cells without ice give none.", "quantifier": "every dataset, table, cell, and option", "why_tests_cant": "all inputs", "anchors": ["emc2/simulator/lidar_moments.py:calc_lidar_micro", "emc2/simulator/radar_moments.py:calc_radar_micro", "emc2/simulator/lidar_moments.py:_calc_strat_lidar_properties", "emc2/simulator/radar_moments.py:_set_p3_tiled_arrays"]}
{"id": "C131", "title": "A microphysics call can be made again", "statement": "After a successful microphysics call, the same call with the same model and instrument succeeds again.", "quantifier": "every model, class list and option", "why_tests_cant": "all histories of calls", "anchors": ["emc2/simulator/lidar_moments.py:calc_lidar_micro", "emc2/simulator/radar_moments.py:calc_radar_micro"]}
{"id": "C132", "title": "Classes can be simulated a few at a time", "statement": "If a microphysics call on several classes succeeds, so does the call on any of them, and it gives the same values for them.", "quantifier": "every model, dataset and pair of class lists", "why_tests_cant": "all class lists", "anchors": ["emc2/simulator/lidar_moments.py:calc_lidar_micro", "emc2/simulator/radar_moments.py:calc_radar_micro"]}
{"id": "C133", "title": "Total spectrum of all particles", "statement": "The total reflectivity of the microphysics method is that of the particles of all classes (added to what was stored), the total Doppler velocity the backscatter-weighted mean velocity of all of them, and the total spectral width the backscatter-weighted spread about that mean.", "quantifier": "every model, dataset, class list and cell", "why_tests_cant": "all inputs", "anchors": ["emc2/simulator/radar_moments.py:calc_radar_micro", "emc2/simulator/radar_moments.py:_calc_sigma_d_tot"]}
{"id": "C134", "title": "Axis labels name what is shown", "statement": "The default label of an axis or colour bar names the quantity and the hydrometeor class of a simulated field, so that fields of different classes have different labels; any other field is labelled with its own name or long name and units.", "quantifier": "every field name, class and set of attributes", "why_tests_cant": "all names", "anchors": ["emc2/plotting/subcol_display.py:SubcolumnDisplay.set_axis_label"]}
{"id": "C135", "title": "Sizes of the subcolumn fields agree", "statement": "Whatever generation calls, direct assignments of num_subcolumns and removals of subcolumn fields are made on an object, in whatever order and including those that fail, every field with subcolumns has exactly num_subcolumns of them at every time and level and one entry per time. Once a field has subcolumns, assigning another number raises ValueError and changes nothing, and the number stays until fields are removed. Setting the number first and generating without N_columns is the same as giving N_columns to the first call.", "quantifier": "every history of calls, assignments and removals, every input and every random draw", "why_tests_cant": "all histories", "anchors": ["emc2/core/model.py:Model.num_subcolumns", "emc2/core/model.py:Model.remove_subcol_fields", "emc2/simulator/subcolumn.py"]}
{"id": "C136", "title": "Gas attenuation and humidity", "statement": "After calc_radar_atm_attenuation, kappa_att is kappa_o2 + kappa_wv at every level and nothing else has changed; kappa_o2 is the oxygen line shape and kappa_wv the coded water vapour expression, both at Instrument.freq (Hz). For every radar of 1 GHz and above kappa_wv is between 1.2e-6 and 1.21e-6 dB/km whatever the humidity, where the published formula gives more than 0.15 dB/km for 10 g/m3 at 22.235 GHz.", "quantifier": "every atmosphere with numbers in the fields; every frequency from 1 GHz, mixing ratio up to 100 g/kg, pressure up to 2000 hPa, temperature from 100 K", "why_tests_cant": "all real inputs", "anchors": ["emc2/simulator/attenuation.py:calc_radar_atm_attenuation"]}
{"id": "C137", "title": "Values of the molecular fields", "statement": "After calc_theory_beta_m, at every time and level n_s is the refractive index of the dispersion formula scaled to the pressure and temperature of the level, N_s the number density of an ideal gas (m-3) and sigma the Rayleigh cross-section (m2) for that index, density and wavelength with depolarisation 0.035, whatever units the dataset has; only the nine molecular fields change.", "quantifier": "every atmosphere with numbers in the fields, every wavelength except the two poles of the dispersion formula, both directions", "why_tests_cant": "all real inputs", "anchors": ["emc2/simulator/attenuation.py:calc_theory_beta_m"]}
{"id": "C138", "title": "Mass phase ratio with missing masses", "statement": "With mass_pr=True and masses that may be missing (NaN), the ratio of a subcolumn cell is missing when any class's mass is missing there, and the column ratio counts each cell's liquid and ice by the masses present.", "quantifier": "every mask, set of classes and cloud types, subcolumn masses that are non-negative numbers or missing", "why_tests_cant": "all placements of missing values", "anchors": ["emc2/simulator/classification.py:calculate_phase_ratio"]}
{"id": "C139", "title": "Scattering ratio of a regridded layer", "statement": "calculate_SR returns, for a new layer, the thickness-weighted total backscatter of the old layers it overlaps divided by their thickness-weighted molecular backscatter.", "quantifier": "every old grid with increasing half levels, every list of contiguous new layers for which regridding succeeds, every total and positive molecular backscatter", "why_tests_cant": "all grids and real profiles", "anchors": ["emc2/statistics_LLNL/statistical_aggregation.py:calculate_SR"]}
{"id": "C140", "title": "Options of a simulation against instrument defaults", "statement": "An OD_from_sfc, eta or ext_OD passed to make_simulated_data gives what the same call without it gives on the same instrument with that default; without mie_for_ice, bulk ice is used except for stratiform ice in the microphysics method with a scheme other than P3.", "quantifier": "every model, instrument, dataset, and value of every other option", "why_tests_cant": "all combinations of options and instrument attributes", "anchors": ["emc2/simulator/main.py:make_simulated_data"]}
{"id": "C141", "title": "Computed tables are for particles in air", "statement": "A table computed for a wavelength (cm), temperature (C) and pressure (hPa) is the Mie solution for the refractive index of the particle at that wavelength and temperature, the wavelength in nm, and a surrounding medium with the index of air, 1 + 77.6e-6 p/T.", "quantifier": "every solver, diameter list, wavelength and density, every temperature above -73 C and pressure up to 1100 hPa", "why_tests_cant": "unbounded inputs and any solver behaviour", "anchors": ["emc2/scattering/mie_scattering.py:scat_properties_water", "emc2/scattering/mie_scattering.py:scat_properties_ice"]}
{"id": "C142", "title": "A display switched to another model draws it as a new display would", "statement": "After the model of a display is replaced, the display draws from the new model exactly what a display created from that model draws.", "quantifier": "every model, with and without latitude and longitude dimensions", "why_tests_cant": "arbitrary datasets", "anchors": ["emc2/plotting/subcol_display.py:SubcolumnDisplay._switch_model"]}
{"id": "C143", "title": "Shape of rain drops", "statement": "The axis ratio of rain drops of up to 10 mm lies between 0.4 and 1, and among drops of at least 0.4 mm a larger drop is flatter.", "quantifier": "every diameter in the range", "why_tests_cant": "a continuum of diameters", "anchors": ["emc2/scattering/mie_scattering.py:brandes"]}
{"id": "C144", "title": "The default list of hydrometeor classes", "statement": "A simulation asked for without a list of hydrometeor classes gives, on every dataset, exactly what it gives when the model's own list is passed; a model that lists no class is refused with ValueError before anything is written.", "quantifier": "every model object, instrument, set of options and dataset", "why_tests_cant": "all combinations of methods, options and data", "anchors": ["emc2/core/model.py:set_hyd_types", "emc2/simulator/main.py:make_simulated_data"]}
{"id": "C145", "title": "Simulations leave the model's fields alone", "statement": "Whatever instruments are simulated on one model object, in whatever order and whether the calls succeed or fail, every field other than moments and masks, and every subcolumn mixing ratio, number concentration and flag, keeps its value.", "quantifier": "every sequence of simulations with any instruments and options, every dataset and field", "why_tests_cant": "unbounded histories of calls, including failed ones", "anchors": ["emc2/simulator/main.py:make_simulated_data", "emc2/simulator/radar_moments.py", "emc2/simulator/lidar_moments.py", "emc2/simulator/classification.py"]}
{"id": "C146", "title": "A radar and a lidar on one model object", "statement": "With the empirical and the radiation-scheme (bulk) method, whether a radar was simulated on a model object before, successfully or not, changes neither the outcome nor the results of simulating a lidar on it, and the other way round; neither touches the results of the other; and when both succeed, the two orders leave identical datasets.", "quantifier": "every model object whose inputs are not named like results, every pair of a radar and a lidar, every two sets of options for these methods, every dataset", "why_tests_cant": "all interleavings of two simulations over all data, including failed calls", "anchors": ["emc2/simulator/main.py:make_simulated_data", "emc2/simulator/radar_moments.py", "emc2/simulator/lidar_moments.py", "emc2/simulator/classification.py"]}
{"id": "C147", "title": "Making a simulation again", "statement": "With the empirical and the radiation-scheme (bulk) method, a simulation that succeeded, made again on the dataset it left, succeeds and changes nothing: totals, attenuations and masks are not accumulated.", "quantifier": "every model object whose inputs are not named like results, every instrument, set of options and dataset", "why_tests_cant": "unbounded data; a stale total would only show on a second call", "anchors": ["emc2/simulator/main.py:make_simulated_data", "emc2/simulator/radar_moments.py", "emc2/simulator/lidar_moments.py", "emc2/simulator/classification.py"]}
{"id": "C148", "title": "Any schedule of a radar and a lidar", "statement": "With the empirical and the radiation-scheme (bulk) method, a radar and a lidar that can each be simulated on a dataset leave the same dataset however often, and in whatever order, they are simulated on it.", "quantifier": "every finite sequence of the two calls containing both, every model object, pair of instruments, options and dataset", "why_tests_cant": "unbounded schedules", "anchors": ["emc2/simulator/main.py:make_simulated_data", "emc2/simulator/radar_moments.py", "emc2/simulator/lidar_moments.py", "emc2/simulator/classification.py"]}
