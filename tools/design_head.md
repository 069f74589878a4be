# Formal model of EMC2 in Rocq (Coq 8.16.1)

## Method

The Python source in /repo/emc2 is modelled function by function as total
Gallina functions (`*_Model.v`, and `Ds.v`, `Mom_Base.v`, `Np.v`, `Xq.v`,
`Xr.v` for the shared primitives), each citing file and lines.  Small
specifications live in `*_Spec.v`, proofs in the other files, and the property
theorems, with nothing else but `Example` witnesses and `Print Assumptions`,
in `Props_*.v`.

Conventions:

* Python exceptions are values (`Raise exn`), never defaults.  A loop that
  never ends is the value `Raise Hang`.
* Random draws (`np.random.permutation`, `np.random.gamma`) are oracle
  arguments; theorems quantify over every oracle meeting the documented
  contract (a permutation of 0..n-1; non-negative numbers).
* float64 numbers are idealised: exact rationals (`Q`) in the subcolumn
  generator, where only field operations and comparisons occur; exact reals
  (`R`) elsewhere.  NaN and the infinities are explicit constructors wherever
  the code can produce them.  Rounding error and overflow are not modelled.
* numpy/xarray/dask primitives (indexing, where, cumsum, stack, bag.map) are
  modelled by their documented semantics.
* A property the code violates keeps its English statement in
  `properties.jsonl`; the violation is proved as a theorem `..._refuted` (a
  reachable counterexample), the part that does hold as `..._partial`, and the
  exact behaviour is usually stated as a further property.

## Trusted base

* Coq 8.16.1's kernel (`coqc`; also re-checked by `coqchk`, which `vcheck`
  runs).  No plugins, no native compilation, no axioms in this development, no
  `Admitted`, no functors or module types, no kernel check switched off.
* The standard library's axioms for the real numbers and classical reasoning,
  as listed by `Print Assumptions` for each theorem (table at the end):
  - D = `ClassicalDedekindReals.sig_forall_dec`
  - N = `ClassicalDedekindReals.sig_not_dec`
  - F = `FunctionalExtensionality.functional_extensionality_dep`
  - C = `Classical_Prop.classic`

  Coquelicot (integrals, in `Psd_*`, `Micro_*` and the files that import
  them) brings no axiom of its own into any theorem.
* The faithfulness of the model to the Python text, i.e. the definitions in the
  `*_Model.v` files read against the cited lines, and the `*_Spec.v`
  vocabulary read against the English properties.

## What is modelled

| code | model |
|------|-------|
| `simulator/subcolumn.py` (all functions) | `Gen_Model`, `Strat_Model`, `Precip_Model`, `Sched_Model`, `History_Model` |
| `simulator/main.py` | `Driver_Model` (generation part), `Sim_Model` (instrument part) |
| `simulator/lidar_moments.py` (all functions) | `Lidar_Model` |
| `simulator/radar_moments.py` (all functions) | `Radar_Model` |
| `simulator/attenuation.py` | `Atm_Model`, gas attenuation in `Radar_Model` |
| `simulator/classification.py` | `Class_Model` |
| `simulator/psd.py` | `Psd_Model` |
| `statistics_LLNL/statistical_aggregation.py` | `Stat_Model`, `Sig_Model` (`get_radar_lidar_signals`, `get_ATB_ATBmol`) |
| `plotting/subcol_display.py`: choice of place, means, mean profiles (the data, not the drawing) | `Disp_Model` |
| `plotting/subcol_display.py`: time-height displays, single profiles, regridded fields, class colours (what is handed to matplotlib) | `Curt_Model` |
| `plotting/subcol_display.py`: `set_axis_label` | `Label_Model` |
| `statistics_LLNL/statistical_plots.py`: displays of every subcolumn, CFADs; `statistical_output.py` | `Every_Model` |
| `core/model.py`: base class operations on the dataset | `Ds`, `Mom_Base`, `Xds_Model` |
| `core/model.py`: readers of model output | `Load_Model` (E3SM, CESM2), `P3_Model` (E3SMv3), `Read_Model` (ModelE, DHARMA, WRF), `App_Model` (`remove_appended_str`) |
| `core/instrument.py`: constructor | `Sim_Model` |
| `core/instrument.py`: choice of table files, unit factors; `core/instruments.py` | `Inst_Model`, `Scat_Model` |
| `scattering/*.py`, `io/load_*_file.py` | `Scat_Model` |

Not modelled: reading and writing of netCDF bytes, attributes, encodings and
units bookkeeping (pint, CF attributes; unit *factors* in formulas are
modelled), logging and printing, progress bars, drawing itself (matplotlib
calls, labels, layout; `plot_column_input_q_timeseries` of
`statistics_LLNL/statistical_plots.py`),
downloading, the external Mie code, float32 storage, integer overflow,
`act`/`wrf-python`/`scipy` internals.  Simplifications are stated in the
comment of the definition concerned.

## Properties: what is modelled and how it is proved

| id | model | proof |
|----|-------|-------|
| C01-C02 | `set_convective_sub_col_frac`, rounding on Q | induction over the fill loop, rounding monotone |
| C03, C20, C53 | API-level state machine over a dataset record, exceptions as values | induction over lists of calls |
| C04-C08, C49 | `_allocate_strat_sub_col` as structural recursion from the top level, permutations as oracle, index errors as values | level invariant (nested, counts, no index error), case analysis over the five placement cases; C05-C07 are violated: exact counts in C49 and counterexamples |
| C09-C12 | `_allocate_precip_sub_col` with any number of classes | level invariant over the class list |
| C13-C14, C50, C52 | chunk loops as fuelled index generators | induction on the number of columns; C14 refuted, C50 gives the exact placement |
| C15-C16, C19 | `set_q_n` uniform and one-subcolumn branches on extended rationals | sums over flag lists |
| C17-C18, C51 | `_distribute_cl_q_n`, search loop with explicit non-termination | induction over draws; C18 refuted, C51 the exact condition |
| C21-C25, C34-C35 | `lidar_moments.py` | induction over profiles and the class list |
| C26-C29, C56 | `classification.py` cell and profile functions | case analysis, induction over the class list |
| C30-C33, C57-C60 | `radar_moments.py`, `attenuation.py` | reals, induction over profiles |
| C36-C40, C48, C55, C88 | dataset operations of `core/model.py` on labelled arrays | index arithmetic, list induction |
| C41, C62 | `psd.py` with Gamma as a function argument that agrees with the gamma integral at the two points used | improper integrals (Coquelicot) |
| C42-C44, C63-C66 | `statistical_aggregation.py` | loop invariants; C42 refuted for the lowest layer |
| C45 | `Instrument.__init__` on R | field |
| C46, C54, C61 | `make_simulated_data` as a program over the dataset | step-wise non-interference of what each call reads and writes |
| C47, C67-C69 | `calc_theory_beta_m` and its use in the lidar calls | induction over profiles |
| C70-C73 | `E3SMv1`/`CESM2` constructors (crop, flip, stack, derived fields) | dimension-wise reasoning on labelled arrays, induction over classes |
| C74-C77 | empirical and bulk methods, value of each class | evaluation of the class loop in real arithmetic, non-interference of later classes |
| C78-C87 | microphysics methods of lidar and radar | characterisation of the loops over times and classes as pure functions, then trapezoidal sums |
| C89-C92 | time range of the readers; `E3SMv3` constructor, P3 table lookup (`P3_Model`) | cropped files are files; piecewise linear interpolation is independent of the cell chosen; gamma moments |
| C93-C98 | `ref_index.py`, `mie_scattering.py`, table readers, `calc_velocity_nssl` (`Scat_Model`), the Mie code a function argument | complex square roots, column-wise evaluation, monotone real functions |
| C99-C100 | `instruments.py` and `load_instrument_scat_files` (`Inst_Model`) | piecewise linear comparison in log space; case analysis over instruments |
| C101-C106 | `ModelE`, `DHARMA`, `WRF` constructors (`Read_Model`) on labelled arrays | cuts along several dimensions commute with stacking; nearest-row search by induction; C104-C106 refuted and proved in part |
| C107-C108 | `remove_appended_str` (`App_Model`) on labelled arrays; names are strings, cut at the first occurrence | renaming by an injective map; loop invariant over the joined fields |
| C109-C113 | means, spreads and mean profiles of `subcol_display.py` (`Disp_Model`): selection of times, mask, squeeze, averaged axes; drawing itself left out | permutation and convexity lemmas for the means; case analysis of squeezed shapes for the profile |
| C114 | choice of latitude and longitude of a display (`Disp_Model`) on labelled arrays | selection removes the dimension, reads at the chosen index |
| C115 | `get_radar_lidar_signals` (`Sig_Model`) | loop invariant over the three nested loops |
| C116-C118, C120 | time-height displays of `subcol_display.py` (`Curt_Model`): cells, positions, mask, hatches, limits, default title | one lemma on the drawing step used by all three displays; selection of the subcolumn by label or index |
| C119 | `plot_single_profile` (`Curt_Model`) | nearest-label lemma of C110, selection of one time |
| C121-C122 | displays of regridded fields with the caller's array afterwards (`Curt_Model`) | views modelled as a new array; induction over sequences of displays |
| C123 | `change_plot_to_class_mask` (`Curt_Model`), colour as place in the table | integer part of the scaled class number |
| C124-C126 | displays of every subcolumn in `statistical_plots.py` (`Every_Model`) with the dataset afterwards | interpolated cell times in closed form, overwriting loop of heights by induction |
| C127 | CFAD displays (`Every_Model`) | case analysis; heights as edges |
| C128 | `save_cfads_to_nc` (`Every_Model`): the dataset written | assignment keeps the other fields; size conditions |
| C129 | bulk method on P3 ice (`Lidar_Model`, `Radar_Model`) | reading the stored fields back through the loop over classes; area by cases on the hybrid option |
| C130 | microphysics method on P3 ice | loop invariant over classes that need not have a gamma distribution (`Micro_Any`, `Micro_Rany`) |
| C131-C132 | repeated calls, fewer classes | frame of the loop: which instruments have been seen; stored parameters |
| C133 | total velocity, second pass for the total width | sums over classes; the second pass rereads the inputs |
| C134 | `set_axis_label` (`Label_Model`) | induction over the two lists of names |
| C135 | `num_subcolumns` setter, `remove_subcol_fields` and all generator calls (`Life_Model`) | invariant over histories (`Life_Proofs`), lengths of every intermediate array (`Life_Len`) |
| C136 | `calc_radar_atm_attenuation` (`Atm_Model`) | exact values of the three fields and real-number bounds (`Radar_Vapour`) |
| C137 | `calc_theory_beta_m` (`Atm_Model`) | exact values against formulas in SI units (`Atm_Values`) |
| C138 | `calculate_phase_ratio` (`Class_Model`) | sums with missing values (`Class_Miss`) |
| C139 | `calculate_SR` (`Stat_Model`) | ratio of two means of C42 (`Stat_More`) |
| C140 | option handling in `simulate` (`Sim_Model`) | equality of whole calls (`Sim_Options`) |
| C141 | `scat_water`, `scat_ice` with any solver (`Scat_Model`) | two solvers that agree on the call give the same table; bound on the index of the medium (`Scat_Air`) |
| C142 | `switch_model`, `display` (`Disp_Model`) | case analysis; refutation from `display_ok` (`Disp_Switch`) |
| C143 | `brandes` (`Scat_Model`) | mean value theorem; the derivative bounded by secants and tangents (`Scat_Drop`) |
| C144 | `simulate`, `set_hyd_types` | the list is only used through `set_hyd_types` (`Sim_Frame`) |
| C145 | `simulate`, sequences of calls | every step writes only result names; induction over the calls (`Sim_Frame`) |
| C146 | `simulate` | footprints: what each step writes and what it reads; disjoint result names (`Sim_Commute`, `Sim_Two`) |
| C147 | `simulate` | every field a simulation reads is an input, a field it does not write, or one it wrote before (`Sim_Again`) |
| C148 | `simulate`, sequences of calls | induction over the schedule from C146 and C147 (`Sim_Again`) |
