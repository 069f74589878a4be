# Formal model of EMC2 in Rocq (Coq 8.16.1)

## Method

The Python source in /repo/emc2 is modelled function by function as total
Gallina functions (`*_Model.v`, and `Ds.v`, `Mom_Base.v`, `Np.v`, `Xq.v`,
`Xr.v` for the shared primitives), each citing file and lines.  Small
specifications live in `*_Spec.v`, proofs in the other files, and the property
theorems, with nothing else but `Example` witnesses and `Print Assumptions`,
in `Props_*.v`.

Conventions:

* Python exceptions are values (`Raise exn`), never defaults.  A loop that
  never ends is the value `Raise Hang`.
* Random draws (`np.random.permutation`, `np.random.gamma`) are oracle
  arguments; theorems quantify over every oracle meeting the documented
  contract (a permutation of 0..n-1; non-negative numbers).
* float64 numbers are idealised: exact rationals (`Q`) in the subcolumn
  generator, where only field operations and comparisons occur; exact reals
  (`R`) elsewhere.  NaN and the infinities are explicit constructors wherever
  the code can produce them.  Rounding error and overflow are not modelled.
* numpy/xarray/dask primitives (indexing, where, cumsum, stack, bag.map) are
  modelled by their documented semantics.
* A property the code violates keeps its English statement in
  `properties.jsonl`; the violation is proved as a theorem `..._refuted` (a
  reachable counterexample), the part that does hold as `..._partial`, and the
  exact behaviour is usually stated as a further property.

## Trusted base

* Coq 8.16.1's kernel (`coqc`; also re-checked by `coqchk`, which `vcheck`
  runs).  No plugins, no native compilation, no axioms in this development, no
  `Admitted`, no functors or module types, no kernel check switched off.
* The standard library's axioms for the real numbers and classical reasoning,
  as listed by `Print Assumptions` for each theorem (table at the end):
  - D = `ClassicalDedekindReals.sig_forall_dec`
  - N = `ClassicalDedekindReals.sig_not_dec`
  - F = `FunctionalExtensionality.functional_extensionality_dep`
  - C = `Classical_Prop.classic`

  Coquelicot (integrals, in `Psd_*`, `Micro_*` and the files that import
  them) brings no axiom of its own into any theorem.
* The faithfulness of the model to the Python text, i.e. the definitions in the
  `*_Model.v` files read against the cited lines, and the `*_Spec.v`
  vocabulary read against the English properties.

## What is modelled

| code | model |
|------|-------|
| `simulator/subcolumn.py` (all functions) | `Gen_Model`, `Strat_Model`, `Precip_Model`, `Sched_Model`, `History_Model` |
| `simulator/main.py` | `Driver_Model` (generation part), `Sim_Model` (instrument part) |
| `simulator/lidar_moments.py` (all functions) | `Lidar_Model` |
| `simulator/radar_moments.py` (all functions) | `Radar_Model` |
| `simulator/attenuation.py` | `Atm_Model`, gas attenuation in `Radar_Model` |
| `simulator/classification.py` | `Class_Model` |
| `simulator/psd.py` | `Psd_Model` |
| `statistics_LLNL/statistical_aggregation.py` | `Stat_Model`, `Sig_Model` (`get_radar_lidar_signals`, `get_ATB_ATBmol`) |
| `plotting/subcol_display.py`: choice of place, means, mean profiles (the data, not the drawing) | `Disp_Model` |
| `plotting/subcol_display.py`: time-height displays, single profiles, regridded fields, class colours (what is handed to matplotlib) | `Curt_Model` |
| `plotting/subcol_display.py`: `set_axis_label` | `Label_Model` |
| `statistics_LLNL/statistical_plots.py`: displays of every subcolumn, CFADs; `statistical_output.py` | `Every_Model` |
| `core/model.py`: base class operations on the dataset | `Ds`, `Mom_Base`, `Xds_Model` |
| `core/model.py`: readers of model output | `Load_Model` (E3SM, CESM2), `P3_Model` (E3SMv3), `Read_Model` (ModelE, DHARMA, WRF), `App_Model` (`remove_appended_str`) |
| `core/instrument.py`: constructor | `Sim_Model` |
| `core/instrument.py`: choice of table files, unit factors; `core/instruments.py` | `Inst_Model`, `Scat_Model` |
| `scattering/*.py`, `io/load_*_file.py` | `Scat_Model` |

Not modelled: reading and writing of netCDF bytes, attributes, encodings and
units bookkeeping (pint, CF attributes; unit *factors* in formulas are
modelled), logging and printing, progress bars, drawing itself (matplotlib
calls, labels, layout; `plot_column_input_q_timeseries` of
`statistics_LLNL/statistical_plots.py`),
downloading, the external Mie code, float32 storage, integer overflow,
`act`/`wrf-python`/`scipy` internals.  Simplifications are stated in the
comment of the definition concerned.

## Properties: what is modelled and how it is proved

| id | model | proof |
|----|-------|-------|
| C01-C02 | `set_convective_sub_col_frac`, rounding on Q | induction over the fill loop, rounding monotone |
| C03, C20, C53 | API-level state machine over a dataset record, exceptions as values | induction over lists of calls |
| C04-C08, C49 | `_allocate_strat_sub_col` as structural recursion from the top level, permutations as oracle, index errors as values | level invariant (nested, counts, no index error), case analysis over the five placement cases; C05-C07 are violated: exact counts in C49 and counterexamples |
| C09-C12 | `_allocate_precip_sub_col` with any number of classes | level invariant over the class list |
| C13-C14, C50, C52 | chunk loops as fuelled index generators | induction on the number of columns; C14 refuted, C50 gives the exact placement |
| C15-C16, C19 | `set_q_n` uniform and one-subcolumn branches on extended rationals | sums over flag lists |
| C17-C18, C51 | `_distribute_cl_q_n`, search loop with explicit non-termination | induction over draws; C18 refuted, C51 the exact condition |
| C21-C25, C34-C35 | `lidar_moments.py` | induction over profiles and the class list |
| C26-C29, C56 | `classification.py` cell and profile functions | case analysis, induction over the class list |
| C30-C33, C57-C60 | `radar_moments.py`, `attenuation.py` | reals, induction over profiles |
| C36-C40, C48, C55, C88 | dataset operations of `core/model.py` on labelled arrays | index arithmetic, list induction |
| C41, C62 | `psd.py` with Gamma as a function argument that agrees with the gamma integral at the two points used | improper integrals (Coquelicot) |
| C42-C44, C63-C66 | `statistical_aggregation.py` | loop invariants; C42 refuted for the lowest layer |
| C45 | `Instrument.__init__` on R | field |
| C46, C54, C61 | `make_simulated_data` as a program over the dataset | step-wise non-interference of what each call reads and writes |
| C47, C67-C69 | `calc_theory_beta_m` and its use in the lidar calls | induction over profiles |
| C70-C73 | `E3SMv1`/`CESM2` constructors (crop, flip, stack, derived fields) | dimension-wise reasoning on labelled arrays, induction over classes |
| C74-C77 | empirical and bulk methods, value of each class | evaluation of the class loop in real arithmetic, non-interference of later classes |
| C78-C87 | microphysics methods of lidar and radar | characterisation of the loops over times and classes as pure functions, then trapezoidal sums |
| C89-C92 | time range of the readers; `E3SMv3` constructor, P3 table lookup (`P3_Model`) | cropped files are files; piecewise linear interpolation is independent of the cell chosen; gamma moments |
| C93-C98 | `ref_index.py`, `mie_scattering.py`, table readers, `calc_velocity_nssl` (`Scat_Model`), the Mie code a function argument | complex square roots, column-wise evaluation, monotone real functions |
| C99-C100 | `instruments.py` and `load_instrument_scat_files` (`Inst_Model`) | piecewise linear comparison in log space; case analysis over instruments |
| C101-C106 | `ModelE`, `DHARMA`, `WRF` constructors (`Read_Model`) on labelled arrays | cuts along several dimensions commute with stacking; nearest-row search by induction; C104-C106 refuted and proved in part |
| C107-C108 | `remove_appended_str` (`App_Model`) on labelled arrays; names are strings, cut at the first occurrence | renaming by an injective map; loop invariant over the joined fields |
| C109-C113 | means, spreads and mean profiles of `subcol_display.py` (`Disp_Model`): selection of times, mask, squeeze, averaged axes; drawing itself left out | permutation and convexity lemmas for the means; case analysis of squeezed shapes for the profile |
| C114 | choice of latitude and longitude of a display (`Disp_Model`) on labelled arrays | selection removes the dimension, reads at the chosen index |
| C115 | `get_radar_lidar_signals` (`Sig_Model`) | loop invariant over the three nested loops |
| C116-C118, C120 | time-height displays of `subcol_display.py` (`Curt_Model`): cells, positions, mask, hatches, limits, default title | one lemma on the drawing step used by all three displays; selection of the subcolumn by label or index |
| C119 | `plot_single_profile` (`Curt_Model`) | nearest-label lemma of C110, selection of one time |
| C121-C122 | displays of regridded fields with the caller's array afterwards (`Curt_Model`) | views modelled as a new array; induction over sequences of displays |
| C123 | `change_plot_to_class_mask` (`Curt_Model`), colour as place in the table | integer part of the scaled class number |
| C124-C126 | displays of every subcolumn in `statistical_plots.py` (`Every_Model`) with the dataset afterwards | interpolated cell times in closed form, overwriting loop of heights by induction |
| C127 | CFAD displays (`Every_Model`) | case analysis; heights as edges |
| C128 | `save_cfads_to_nc` (`Every_Model`): the dataset written | assignment keeps the other fields; size conditions |
| C129 | bulk method on P3 ice (`Lidar_Model`, `Radar_Model`) | reading the stored fields back through the loop over classes; area by cases on the hybrid option |
| C130 | microphysics method on P3 ice | loop invariant over classes that need not have a gamma distribution (`Micro_Any`, `Micro_Rany`) |
| C131-C132 | repeated calls, fewer classes | frame of the loop: which instruments have been seen; stored parameters |
| C133 | total velocity, second pass for the total width | sums over classes; the second pass rereads the inputs |
| C134 | `set_axis_label` (`Label_Model`) | induction over the two lists of names |
| C135 | `num_subcolumns` setter, `remove_subcol_fields` and all generator calls (`Life_Model`) | invariant over histories (`Life_Proofs`), lengths of every intermediate array (`Life_Len`) |
| C136 | `calc_radar_atm_attenuation` (`Atm_Model`) | exact values of the three fields and real-number bounds (`Radar_Vapour`) |
| C137 | `calc_theory_beta_m` (`Atm_Model`) | exact values against formulas in SI units (`Atm_Values`) |
| C138 | `calculate_phase_ratio` (`Class_Model`) | sums with missing values (`Class_Miss`) |
| C139 | `calculate_SR` (`Stat_Model`) | ratio of two means of C42 (`Stat_More`) |
| C140 | option handling in `simulate` (`Sim_Model`) | equality of whole calls (`Sim_Options`) |
| C141 | `scat_water`, `scat_ice` with any solver (`Scat_Model`) | two solvers that agree on the call give the same table; bound on the index of the medium (`Scat_Air`) |
| C142 | `switch_model`, `display` (`Disp_Model`) | case analysis; refutation from `display_ok` (`Disp_Switch`) |
| C143 | `brandes` (`Scat_Model`) | mean value theorem; the derivative bounded by secants and tangents (`Scat_Drop`) |
| C144 | `simulate`, `set_hyd_types` | the list is only used through `set_hyd_types` (`Sim_Frame`) |
| C145 | `simulate`, sequences of calls | every step writes only result names; induction over the calls (`Sim_Frame`) |
| C146 | `simulate` | footprints: what each step writes and what it reads; disjoint result names (`Sim_Commute`, `Sim_Two`) |
| C147 | `simulate` | every field a simulation reads is an input, a field it does not write, or one it wrote before (`Sim_Again`) |
| C148 | `simulate`, sequences of calls | induction over the schedule from C146 and C147 (`Sim_Again`) |

## Findings

Behaviour of the code that contradicts its documentation or a plausible user
expectation, each proved about the model (theorem in the table) or visible in
the cited definition.

* Stratiform placement: a type alone at a level below subcolumns that hold both
  types gets fewer subcolumns than its fraction (C05, C07, C49); overcast
  liquid and ice ignore convection (C06).
* Chunked variable cloud-water distribution stores columns in a rotated order
  and fails when the chunk size does not divide T-1 (C14, C50); it never ends
  for a mixing ratio at or below the threshold (C18, C51); a chunk size below
  one never ends (C52).
* One convective subcolumn always raises ValueError (C19).
* The detection mask leaves clear cells unmarked (C31); the driver ignores
  `ref_rng` unless a keyword `reg_rng` is passed (C32).
* Empirical and microphysics radar: only the last listed class attenuates
  (C57, C86); the total velocity loses the classes listed before `cl` (C83,
  C85); a second microphysics call adds decibels to linear values (C84); the
  NSSL scheme works for `cl` only (C87).
* Bulk methods: the uppermost level has a negative depth (C60); a gap in a
  class hides everything beyond (C58).
* Oxygen attenuation does not depend on frequency (units, C59).
* Water vapour has no effect on the gas attenuation of a radar: the frequency is in Hz, the line width is outside the denominator and the continuum term outside the bracket (C136).
* An `ext_OD` passed to `make_simulated_data` sets the extinction mask but not
  the phase classification, which keeps the instrument's limit (C140, C26).
* One class whose mass is missing removes the whole mass of its phase in that
  cell from the column's mass phase ratio (C138).
* Lidar microphysics totals accumulate over repeated calls (C79); the
  molecular part is always counted from the surface (C69); stored mass
  extinction is 1e4 too large (C68); COSP clear-air ratio is not 1 (C56).
* A lidar simulation with classification works for the HSRL only (C61); it
  fails if `hyd_types` leaves out the model's first class (C46).
* The droplet shape parameter is computed from a concentration divided by 1e6
  once too often (C62).
* Regridding skips the lowest old layer for all but the lowest new one (C42),
  places values one layer too high (C63), reports SR = 1 below ground (C64),
  lets -1e30 enter means (C65) and averages decibels (C66).
* Truncation of P3 ice on reading has no effect (C73).
* Mie tables computed for water exchange scattering and backscattering; the
  size parameter is 1000 times too large (C94, C95).
* The NSSL graupel and hail drag coefficient is constant below 798 kg m-3
  (missing division by the density range, C98).
* `RL("DHARMA")` and the like fail: the string is taken for the temperature
  switch (C100).
* A WRF time range is compared with step numbers, the time coordinate being
  dropped before (C103); its bounding box leaves out the row and column closest
  to the upper edge (C104); "NSSL" in capitals gets no particle densities
  (C105).
* A time range without a step reads the whole file (C101).
* The class `pir` of DHARMA has its cloud fraction as radius field (C106).
* `remove_appended_str` fails with ValueError whenever latitude and longitude
  carry the same string: the first pass renames both, the second asks for the
  old names again (C107).
* `plot_subcolumn_mean_profile` with any `Mask_array` undoes the masking of
  non-finite values (`np.where` on a masked array drops the mask): empty cells
  (-inf dBZ) then count as zero signal, also with a mask of zeros (C111).
* With geometric averaging (on request; what "auto" picks for Ze, alpha, beta, OD)
  the geometric standard deviation, a factor of at least 1, is added to and
  subtracted from the mean: the band depends on the units (C112).
* A mean profile at a single time fails with UnboundLocalError for fields
  without subcolumns and for one subcolumn: after `squeeze` the array has one
  axis, and only two or three are handled (C113).
* `_switch_lat_lon` never has an effect after construction: the dimensions it
  looks for are gone from the cropped dataset, whatever `deep` is.  A numpy
  integer as `lat_sel` or `lon_sel` is ignored without a message (C114).
* Time-height displays without a title fail for numeric times, and with
  logarithmic colours unless both limits are given (`norm` unset, C118);
  hatching without a mask hatches everything, and negative mask entries are
  hatched though they hide nothing (C117).
* `plot_column_input_q_timeseries` divides pressure labels by 1000 and calls
  them height in km (C120).  Its copy in `statistical_plots.py` uses
  `self._obj`, which displays do not have (not modelled).
* `plot_regridded_CF_timeseries` and `plot_regridded_SR_timeseries` write NaN
  into the caller's array (C122) and fail for a single time or level (C121).
* Displays of every subcolumn write NaN into the model's fields if there is one
  subcolumn: the reshaped array is then a view (C125).
* The attenuated display ignores its four colour limits and fails with `vmax`
  (`kwargs.pop('vmin')`), the unattenuated one fails with either keyword, the
  CFADs fail with `vmin`; the radar CFAD ignores `vmax` (C126).
* CFAD heights are always multiples of 0.48 km, whatever grid is given (C127).
* `save_cfads_to_nc` drops the result of `assign_coords`: the bins are not
  saved.  The model's own dataset gains the three fields (C128).
* With P3 ice a second microphysics call with the same instrument fails:
  `i_calc_kws` is only bound when the instrument has no interpolants yet
  (`lidar_moments.py` 624-646, `radar_moments.py` alike; C131).
* The radar cannot be run on P3 ice alone: the parameters it drops at the end
  (`radar_moments.py` 837) are never stored for it (C132).
* The second pass for the total spectral width uses the air-density factor
  left by the last class for all classes: particles that all fall at one speed
  get a positive width (C133).
* Axis labels: sn, gr and ha get an empty class, pir, pid and pif are shown as
  pi, and any name containing "od" or "OD" (PRODPREC) is labelled as an optical
  depth (C134).

## Testing against wrong programs

`seeded/LOG.jsonl` has one line per edited definition.  The edits were made in
scratch copies by `tools/mutate.py`, which rebuilds every file and reports
the theorems that no longer check.  Edits that survived led to further
theorems (field "tightened") or were equivalent programs.

## Assumptions of each theorem

Letters as above; "-" means closed under the global context.

| property | theorem | axioms |
|---|---|---|
| C01 | `C01_convective_prefix` | - |
| C01 | `C01_request_defined` | - |
| C02 | `C02_convective_maximal_overlap` | - |
| C03 | `C03_number_of_subcolumns_fixed` | - |
| C04 | `C04_stratiform_nested` | - |
| C05 | `C05_stratiform_count_partial` | - |
| C05 | `C05_stratiform_count_refuted` | - |
| C06 | `C06_stratiform_not_convective_partial` | - |
| C06 | `C06_stratiform_not_convective_refuted` | - |
| C07 | `C07_stratiform_overlap_partial` | - |
| C07 | `C07_stratiform_overlap_refuted` | - |
| C08 | `C08_precip_top_empty` | - |
| C08 | `C08_stratiform_top_empty` | - |
| C09 | `C09_precip_count` | - |
| C10 | `C10_precip_nested` | - |
| C11 | `C11_precip_continues` | - |
| C12 | `C12_precip_cloudy_first` | - |
| C13 | `C13_columns_once` | - |
| C13 | `C13_precip_schedule` | - |
| C13 | `C13_stratiform_schedule` | - |
| C14 | `C14_qn_schedule_partial` | - |
| C14 | `C14_qn_schedule_refuted` | - |
| C15 | `C15_uniform_mass` | - |
| C15 | `C15_uniform_values` | - |
| C16 | `C16_number_values` | - |
| C17 | `C17_variable_conserves` | - |
| C18 | `C18_variable_returns_partial` | - |
| C18 | `C18_variable_returns_refuted` | - |
| C19 | `C19_off_convective_refuted` | - |
| C19 | `C19_off_mixing_ratio_partial` | - |
| C19 | `C19_off_precip_partial` | - |
| C19 | `C19_off_stratiform_partial` | - |
| C20 | `C20_failed_call_unchanged_refuted` | - |
| C20 | `C20_missing_liquid_refuted` | - |
| C20 | `C20_order_enforced_partial` | - |
| C21 | `C21_optical_depth` | DF |
| C21 | `C21_optical_depth_monotone` | DF |
| C22 | `C22_attenuation_bounds` | CDFN |
| C22 | `C22_attenuation_decreasing` | CDFN |
| C22 | `C22_no_attenuation_at_0` | DFN |
| C23 | `C22_C23_totals` | DFN |
| C24 | `C24_caller_table_ignored` | DF |
| C24 | `C24_caller_table_refuted` | DF |
| C24 | `C24_mean_bounds_partial` | DF |
| C24 | `C24_weighted_mean_partial` | DF |
| C25 | `C25_extinction_mask` | DF |
| C26 | `C26_lidar_phase_class` | CDFN |
| C26 | `C26_no_thresholds` | CDFN |
| C26 | `C26_not_a_lidar` | CDFN |
| C27 | `C27_cosp_mask` | DFN |
| C27 | `C27_default_curves` | DF |
| C27 | `C27_four_values` | CDF |
| C27 | `C27_only_HSRL` | DFN |
| C28 | `C28_radar_phase_class` | DF |
| C29 | `C29_frequency_bounds` | DF |
| C29 | `C29_frequency_ratio` | DF |
| C29 | `C29_mass_bounds` | DF |
| C29 | `C29_mass_ratio` | DF |
| C29 | `C29_model_mass_ratio` | DF |
| C29 | `C29_numerator_below` | - |
| C30 | `C30_attenuated_total` | CDFN |
| C30 | `C30_nothing_is_nan` | CDFN |
| C30 | `C30_total_reflectivity` | CDFN |
| C31 | `C31_mask_partial` | CDFN |
| C31 | `C31_no_signal_is_unmarked` | CDFN |
| C31 | `C31_no_signal_refuted` | CDFN |
| C32 | `C32_driver_keyword_alone` | CDFN |
| C32 | `C32_driver_reference` | CDFN |
| C32 | `C32_driver_reference_refuted` | CDFN |
| C32 | `C32_range_law` | CDFN |
| C32 | `C32_range_law_shape` | CDFN |
| C33 | `C33_transmittance` | CDFN |
| C33 | `C33_transmittance_value` | CDFN |
| C34 | `C34_lidar_class_order_partial` | CDFN |
| C34 | `C34_lidar_class_order_refuted` | CDFN |
| C34 | `C34_lidar_totals_are_sums` | CDFN |
| C34 | `C34_radar_class_order_partial` | CDFN |
| C34 | `C34_radar_class_order_refuted` | CDFN |
| C34 | `C34_radar_contributions` | CDFN |
| C34 | `C34_radar_empirical_total` | CDFN |
| C35 | `C35_lidar_repeat_partial` | CDFN |
| C35 | `C35_microphysics_refuted` | CDFN |
| C35 | `C35_radar_repeat_partial` | CDFN |
| C36 | `C36_coordinates` | D |
| C36 | `C36_fields_made_while_stacked` | D |
| C36 | `C36_single_column` | D |
| C36 | `C36_stack_unstack` | D |
| C36 | `C36_time_added` | D |
| C36 | `C36_unstack_unstacked` | - |
| C37 | `C37_finalize` | DF |
| C37 | `C37_finalize_twice` | DF |
| C38 | `C38_remove` | - |
| C38 | `C38_remove_keeps` | - |
| C39 | `C39_clamp` | DF |
| C39 | `C39_clamp_value` | DF |
| C40 | `C40_crop` | DF |
| C41 | `C41_no_condensate` | CDFN |
| C41 | `C41_number_and_mass` | CDFN |
| C41 | `C41_shape` | CDFN |
| C42 | `C42_between_partial` | CDFN |
| C42 | `C42_bottom_layer_dropped` | CDFN |
| C42 | `C42_linear_partial` | CDFN |
| C42 | `C42_succeeds` | CDFN |
| C42 | `C42_too_high` | CDFN |
| C42 | `C42_weighted_mean_partial` | CDFN |
| C42 | `C42_weighted_mean_refuted` | CDFN |
| C43 | `C43_lidar_cloud_fraction` | DF |
| C44 | `C44_empty_row` | DF |
| C44 | `C44_row` | DF |
| C44 | `C44_time_bound` | DF |
| C44 | `C44_time_mean` | DF |
| C45 | `C45_both_given_unchecked` | DF |
| C45 | `C45_from_frequency` | DF |
| C45 | `C45_from_wavelength` | DF |
| C45 | `C45_neither` | DF |
| C46 | `C46_generation_only` | CDFN |
| C46 | `C46_lidar_empirical` | CDFN |
| C46 | `C46_lidar_order_partial` | CDFN |
| C46 | `C46_lidar_order_refuted` | CDFN |
| C46 | `C46_radar_empirical` | CDFN |
| C46 | `C46_radar_order` | CDFN |
| C46 | `C46_unsupported_class` | CDFN |
| C47 | `C47_directions` | DFN |
| C47 | `C47_optical_depth` | DFN |
| C47 | `C47_transmittance` | CDFN |
| C48 | `C48_saved_coords` | - |
| C48 | `C48_saved_fields` | - |
| C49 | `C49_stratiform_count_exact` | - |
| C50 | `C50_chunked_placement` | - |
| C51 | `C51_variable_returns_exactly` | - |
| C52 | `C52_chunk_below_one_never_returns` | - |
| C53 | `C53_calls_change_only_their_outputs` | - |
| C53 | `C53_history_changes_only_outputs` | - |
| C54 | `C54_driver_generates` | - |
| C55 | `C55_save_load` | DF |
| C56 | `C56_clear_air_above_one` | DFN |
| C56 | `C56_clear_air_is_one_refuted` | DFN |
| C56 | `C56_clear_air_ratio` | DFN |
| C57 | `C57_ice_last_no_attenuation` | CDFN |
| C57 | `C57_last_class_attenuates` | CDFN |
| C57 | `C57_liquid_last_value` | CDFN |
| C58 | `C58_gap_hides_attenuation` | CDFN |
| C59 | `C59_oxygen_frequency_free` | CDFN |
| C59 | `C59_oxygen_line_missed` | CDFN |
| C60 | `C60_bulk_from_above_refuted` | CDFN |
| C60 | `C60_bulk_from_surface_partial` | CDFN |
| C60 | `C60_bulk_transmittance_value_partial` | CDFN |
| C60 | `C60_empirical_call_partial` | CDFN |
| C60 | `C60_microphysics_partial` | CDFN |
| C61 | `C61_other_lidars_not_classified` | CDFN |
| C62 | `C62_shape_insensitive` | CDFN |
| C62 | `C62_shape_refuted` | CDFN |
| C62 | `C62_shape_value` | CDFN |
| C63 | `C63_layer_above_level` | DF |
| C63 | `C63_layers_ordered` | DF |
| C64 | `C64_below_ground_fraction` | DF |
| C64 | `C64_below_ground_is_clear` | CDFN |
| C65 | `C65_all_missing` | CDFN |
| C65 | `C65_partly_missing` | CDFN |
| C66 | `C66_decibel_mean` | CDFN |
| C66 | `C66_linear_mean_refuted` | CDFN |
| C68 | `C67_C68_consistent_fields` | DFN |
| C69 | `C69_direction_refuted` | CDFN |
| C69 | `C69_lidar_direction` | CDFN |
| C70 | `C70_height_stays_with_its_values` | DF |
| C70 | `C70_reading_succeeds` | DF |
| C70 | `C70_values_stay_with_their_box` | DF |
| C71 | `C71_air` | DF |
| C71 | `C71_in_numbers` | DF |
| C71 | `C71_numbers_and_radii` | DF |
| C72 | `C72_p3_fields` | DF |
| C73 | `C73_ice_mass_never_changed` | DF |
| C73 | `C73_truncated_ice_removed_refuted` | DF |
| C74 | `C74_empirical_extinction_and_backscatter` | CDFN |
| C75 | `C75_empirical_reflectivity` | CDFN |
| C76 | `C76_bulk_extinction_and_backscatter` | CDFN |
| C77 | `C77_bulk_reflectivity` | CDFN |
| C78 | `C78_lidar_class_values` | CDFN |
| C78 | `C78_lidar_no_condensate` | CDFN |
| C78 | `C78_lidar_not_negative` | CDFN |
| C79 | `C79_lidar_second_call` | CDFN |
| C79 | `C79_lidar_totals` | CDFN |
| C80 | `C80_lidar_class_order` | CDFN |
| C81 | `C81_lidar_schedule` | CDFN |
| C81 | `C81_radar_schedule` | CDFN |
| C82 | `C82_radar_class_values` | CDFN |
| C82 | `C82_radar_no_condensate` | CDFN |
| C82 | `C82_radar_velocity_range` | CDFN |
| C83 | `C83_classes_before_cl_dropped` | - |
| C83 | `C83_total_velocity_partial` | CDFN |
| C83 | `C83_total_velocity_refuted` | CDFN |
| C83 | `C83_without_cl_none_dropped` | - |
| C84 | `C84_radar_second_call` | CDFN |
| C84 | `C84_radar_total` | CDFN |
| C85 | `C85_radar_class_order_partial` | CDFN |
| C85 | `C85_radar_class_order_refuted` | CDFN |
| C86 | `C86_only_last_class_attenuates` | CDFN |
| C86 | `C86_transmittance_of_last_class` | CDFN |
| C87 | `C87_nssl_only_cloud_liquid` | CDFN |
| C88 | `C88_contradiction_fails` | DF |
| C88 | `C88_loading_keeps_values` | DF |
| C89 | `C89_reading_a_time_range` | DF |
| C89 | `C89_values_in_the_range` | DF |
| C90 | `C90_between_table_values` | DF |
| C90 | `C90_every_point_has_a_cell` | DF |
| C90 | `C90_missing_off_the_grid` | DF |
| C90 | `C90_table_values_at_the_nodes` | DF |
| C90 | `C90_trilinear` | DF |
| C91 | `C91_inputs_in_table_range` | CDFN |
| C91 | `C91_other_fields_kept` | CDFN |
| C91 | `C91_reading_succeeds` | CDFN |
| C91 | `C91_slope_from_table` | CDFN |
| C91 | `C91_without_a_table` | CDFN |
| C92 | `C92_one_particle` | CDFN |
| C93 | `C93_ice_index` | DFN |
| C93 | `C93_water_index` | DFN |
| C94 | `C94_ice_sections_partial` | DFN |
| C94 | `C94_water_backscatter_refuted` | DFN |
| C94 | `C94_water_extinction_partial` | DFN |
| C95 | `C95_diameters` | DFN |
| C95 | `C95_ice_size_parameter` | DFN |
| C95 | `C95_water_exchanged` | DFN |
| C95 | `C95_water_size_parameter` | DFN |
| C96 | `C96_bulk_table_c6` | DF |
| C96 | `C96_bulk_table_mdad` | DF |
| C96 | `C96_mie_sections` | DFN |
| C96 | `C96_mie_table` | DFN |
| C96 | `C96_scattering_table_c6` | DF |
| C96 | `C96_scattering_table_mdad` | DF |
| C96 | `C96_unknown_format` | DF |
| C97 | `C97_p3_table` | DF |
| C97 | `C97_velocities` | DF |
| C98 | `C98_any_capitalisation` | CDFN |
| C98 | `C98_graupel_drag` | DFN |
| C98 | `C98_missing` | CDFN |
| C98 | `C98_nssl_velocity` | CDFN |
| C98 | `C98_other_classes_do_not_fall` | CDFN |
| C99 | `C99_class_boundaries` | CDFN |
| C99 | `C99_stronger_signal` | CDFN |
| C99 | `C99_thresholds_ordered` | CDFN |
| C100 | `C100_defaults` | D |
| C100 | `C100_instrument_tables` | D |
| C100 | `C100_string_first_fails` | - |
| C100 | `C100_temperature_and_model` | D |
| C100 | `C100_unknown_site` | - |
| C101 | `C101_dimensions` | DF |
| C101 | `C101_modele_reads` | DF |
| C101 | `C101_range_must_be_datetime` | DF |
| C101 | `C101_range_without_a_step` | DF |
| C101 | `C101_vertical_dimension` | - |
| C102 | `C102_dharma_reads` | DF |
| C102 | `C102_dimensions` | DF |
| C102 | `C102_range_must_be_datetime` | DF |
| C103 | `C103_dimensions` | DF |
| C103 | `C103_unknown_scheme` | DF |
| C103 | `C103_wrf_reads` | DF |
| C104 | `C104_box_partial` | DF |
| C104 | `C104_row_inside_box_refuted` | DF |
| C105 | `C105_densities_partial` | DF |
| C105 | `C105_nssl_refuted` | DF |
| C106 | `C106_fractions` | - |
| C106 | `C106_pir_refuted` | - |
| C106 | `C106_radii_partial` | - |
| C107 | `C107_names_partial` | D |
| C107 | `C107_same_string_refuted` | D |
| C108 | `C108_field_missing` | D |
| C108 | `C108_nothing_appended` | D |
| C108 | `C108_subdomains` | D |
| C109 | `C109_geometric` | CDFN |
| C109 | `C109_mean` | CDFN |
| C109 | `C109_order_free` | CDFN |
| C110 | `C110_grid_field` | CDFN |
| C110 | `C110_instrument` | CDFN |
| C110 | `C110_profile` | CDFN |
| C111 | `C111_mask_partial` | CDFN |
| C111 | `C111_open_mask_refuted` | CDFN |
| C112 | `C112_band` | CDFN |
| C112 | `C112_band_reflectivity` | CDFN |
| C112 | `C112_equal_values` | CDFN |
| C112 | `C112_geometric_equal_values_refuted` | CDFN |
| C112 | `C112_geometric_units_refuted` | CDFN |
| C112 | `C112_units_partial` | CDFN |
| C113 | `C113_one_subcolumn_refuted` | CDFN |
| C113 | `C113_one_time_partial` | CDFN |
| C113 | `C113_one_time_refuted` | CDFN |
| C114 | `C114_bad_index` | DF |
| C114 | `C114_no_place` | DF |
| C114 | `C114_numpy_index_refuted` | DF |
| C114 | `C114_place` | DF |
| C114 | `C114_switch_refuted` | DF |
| C115 | `C115_signals` | DF |
| C116 | `C116_curtain` | DF |
| C116 | `C116_instrument` | DF |
| C116 | `C116_instrument_masked` | DF |
| C116 | `C116_masked` | DF |
| C117 | `C117_hatched_partial` | DF |
| C117 | `C117_negative_refuted` | DF |
| C117 | `C117_no_mask_refuted` | DF |
| C117 | `C117_other_shape` | DF |
| C118 | `C118_default_title_refuted` | DF |
| C118 | `C118_given_partial` | DF |
| C118 | `C118_instrument_limits_refuted` | DF |
| C118 | `C118_log_limits_refuted` | DF |
| C119 | `C119_profile` | DF |
| C120 | `C120_mixing_ratio` | DF |
| C120 | `C120_pressure_refuted` | DF |
| C121 | `C121_cloud_fraction` | DF |
| C121 | `C121_scattering_ratio` | DF |
| C121 | `C121_single_refuted` | DF |
| C122 | `C122_cloud_fraction_refuted` | DF |
| C122 | `C122_history_partial` | DF |
| C122 | `C122_scattering_ratio_refuted` | DF |
| C123 | `C123_class_colours` | DF |
| C124 | `C124_attenuated` | DF |
| C124 | `C124_cell_times` | DF |
| C124 | `C124_cloud_precipitation` | DF |
| C124 | `C124_mixing_ratios` | DF |
| C124 | `C124_ratio` | DF |
| C124 | `C124_signals` | DF |
| C125 | `C125_kept_partial` | DF |
| C125 | `C125_mixing_ratio_refuted` | DF |
| C125 | `C125_one_subcolumn_refuted` | DF |
| C126 | `C126_attenuated_refuted` | DF |
| C126 | `C126_lidar_cfad_refuted` | DF |
| C126 | `C126_radar_cfad_refuted` | DF |
| C126 | `C126_unattenuated_keywords_refuted` | DF |
| C126 | `C126_unattenuated_partial` | DF |
| C127 | `C127_heights_partial` | DF |
| C127 | `C127_heights_refuted` | DF |
| C127 | `C127_lidar` | DF |
| C127 | `C127_radar` | DF |
| C128 | `C128_bins_refuted` | - |
| C128 | `C128_saved` | - |
| C128 | `C128_saves` | - |
| C129 | `C129_p3_bulk_lidar` | CDFN |
| C129 | `C129_p3_bulk_radar` | CDFN |
| C130 | `C130_p3_micro_lidar` | CDFN |
| C130 | `C130_p3_micro_radar` | CDFN |
| C131 | `C131_p3_lidar_repeat_refuted` | CDFN |
| C131 | `C131_p3_radar_repeat_refuted` | CDFN |
| C132 | `C132_fewer_classes_partial` | CDFN |
| C132 | `C132_p3_ice_alone_refuted` | CDFN |
| C133 | `C133_total_reflectivity` | CDFN |
| C133 | `C133_total_spectrum_partial` | CDFN |
| C133 | `C133_total_width_refuted` | CDFN |
| C134 | `C134_any_name` | - |
| C134 | `C134_foreign_field_refuted` | - |
| C134 | `C134_moment_labels_partial` | - |
| C134 | `C134_other_classes_refuted` | - |
| C134 | `C134_own_labels_partial` | - |
| C135 | `C135_number_kept` | - |
| C135 | `C135_removal` | - |
| C135 | `C135_removal_keeps` | - |
| C135 | `C135_set_then_generate` | - |
| C135 | `C135_setter` | - |
| C135 | `C135_sizes_agree` | - |
| C135 | `C135_start` | - |
| C136 | `C136_gas_fields` | CDFN |
| C136 | `C136_humidity_without_effect` | CDFN |
| C136 | `C136_vapour_line_missed` | CDFN |
| C137 | `C137_molecular_values` | DFN |
| C138 | `C138_missing_masses_partial` | DF |
| C138 | `C138_present_masses_refuted` | DF |
| C139 | `C139_ratio_of_means` | CDFN |
| C140 | `C140_direction` | CDFN |
| C140 | `C140_eta` | CDFN |
| C140 | `C140_ice_by_cloud_type` | - |
| C140 | `C140_ice_default` | CDFN |
| C140 | `C140_limit_partial` | CDFN |
| C140 | `C140_lidar_options` | CDFN |
| C140 | `C140_radar_options` | CDFN |
| C141 | `C141_in_air` | DFN |
| C142 | `C142_place_refuted` | DF |
| C142 | `C142_switch_partial` | DF |
| C143 | `C143_drop_ratio` | CDFN |
| C143 | `C143_larger_is_flatter` | CDFN |
| C144 | `C144_default_classes` | CDFN |
| C144 | `C144_no_classes` | CDFN |
| C145 | `C145_fields_kept` | CDFN |
| C145 | `C145_subcolumns_kept` | CDFN |
| C146 | `C146_either_order` | CDFN |
| C146 | `C146_lidar_after_radar` | CDFN |
| C146 | `C146_radar_after_lidar` | CDFN |
| C147 | `C147_simulate_again` | CDFN |
| C148 | `C148_any_schedule` | CDFN |
