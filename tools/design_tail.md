
## Findings

Behaviour of the code that contradicts its documentation or a plausible user
expectation, each proved about the model (theorem in the table) or visible in
the cited definition.

* Stratiform placement: a type alone at a level below subcolumns that hold both
  types gets fewer subcolumns than its fraction (C05, C07, C49); overcast
  liquid and ice ignore convection (C06).
* Chunked variable cloud-water distribution stores columns in a rotated order
  and fails when the chunk size does not divide T-1 (C14, C50); it never ends
  for a mixing ratio at or below the threshold (C18, C51); a chunk size below
  one never ends (C52).
* One convective subcolumn always raises ValueError (C19).
* The detection mask leaves clear cells unmarked (C31); the driver ignores
  `ref_rng` unless a keyword `reg_rng` is passed (C32).
* Empirical and microphysics radar: only the last listed class attenuates
  (C57, C86); the total velocity loses the classes listed before `cl` (C83,
  C85); a second microphysics call adds decibels to linear values (C84); the
  NSSL scheme works for `cl` only (C87).
* Bulk methods: the uppermost level has a negative depth (C60); a gap in a
  class hides everything beyond (C58).
* Oxygen attenuation does not depend on frequency (units, C59).
* Water vapour has no effect on the gas attenuation of a radar: the frequency is in Hz, the line width is outside the denominator and the continuum term outside the bracket (C136).
* An `ext_OD` passed to `make_simulated_data` sets the extinction mask but not
  the phase classification, which keeps the instrument's limit (C140, C26).
* One class whose mass is missing removes the whole mass of its phase in that
  cell from the column's mass phase ratio (C138).
* Lidar microphysics totals accumulate over repeated calls (C79); the
  molecular part is always counted from the surface (C69); stored mass
  extinction is 1e4 too large (C68); COSP clear-air ratio is not 1 (C56).
* A lidar simulation with classification works for the HSRL only (C61); it
  fails if `hyd_types` leaves out the model's first class (C46).
* The droplet shape parameter is computed from a concentration divided by 1e6
  once too often (C62).
* Regridding skips the lowest old layer for all but the lowest new one (C42),
  places values one layer too high (C63), reports SR = 1 below ground (C64),
  lets -1e30 enter means (C65) and averages decibels (C66).
* Truncation of P3 ice on reading has no effect (C73).
* Mie tables computed for water exchange scattering and backscattering; the
  size parameter is 1000 times too large (C94, C95).
* The NSSL graupel and hail drag coefficient is constant below 798 kg m-3
  (missing division by the density range, C98).
* `RL("DHARMA")` and the like fail: the string is taken for the temperature
  switch (C100).
* A WRF time range is compared with step numbers, the time coordinate being
  dropped before (C103); its bounding box leaves out the row and column closest
  to the upper edge (C104); "NSSL" in capitals gets no particle densities
  (C105).
* A time range without a step reads the whole file (C101).
* The class `pir` of DHARMA has its cloud fraction as radius field (C106).
* `remove_appended_str` fails with ValueError whenever latitude and longitude
  carry the same string: the first pass renames both, the second asks for the
  old names again (C107).
* `plot_subcolumn_mean_profile` with any `Mask_array` undoes the masking of
  non-finite values (`np.where` on a masked array drops the mask): empty cells
  (-inf dBZ) then count as zero signal, also with a mask of zeros (C111).
* With geometric averaging (on request; what "auto" picks for Ze, alpha, beta, OD)
  the geometric standard deviation, a factor of at least 1, is added to and
  subtracted from the mean: the band depends on the units (C112).
* A mean profile at a single time fails with UnboundLocalError for fields
  without subcolumns and for one subcolumn: after `squeeze` the array has one
  axis, and only two or three are handled (C113).
* `_switch_lat_lon` never has an effect after construction: the dimensions it
  looks for are gone from the cropped dataset, whatever `deep` is.  A numpy
  integer as `lat_sel` or `lon_sel` is ignored without a message (C114).
* Time-height displays without a title fail for numeric times, and with
  logarithmic colours unless both limits are given (`norm` unset, C118);
  hatching without a mask hatches everything, and negative mask entries are
  hatched though they hide nothing (C117).
* `plot_column_input_q_timeseries` divides pressure labels by 1000 and calls
  them height in km (C120).  Its copy in `statistical_plots.py` uses
  `self._obj`, which displays do not have (not modelled).
* `plot_regridded_CF_timeseries` and `plot_regridded_SR_timeseries` write NaN
  into the caller's array (C122) and fail for a single time or level (C121).
* Displays of every subcolumn write NaN into the model's fields if there is one
  subcolumn: the reshaped array is then a view (C125).
* The attenuated display ignores its four colour limits and fails with `vmax`
  (`kwargs.pop('vmin')`), the unattenuated one fails with either keyword, the
  CFADs fail with `vmin`; the radar CFAD ignores `vmax` (C126).
* CFAD heights are always multiples of 0.48 km, whatever grid is given (C127).
* `save_cfads_to_nc` drops the result of `assign_coords`: the bins are not
  saved.  The model's own dataset gains the three fields (C128).
* With P3 ice a second microphysics call with the same instrument fails:
  `i_calc_kws` is only bound when the instrument has no interpolants yet
  (`lidar_moments.py` 624-646, `radar_moments.py` alike; C131).
* The radar cannot be run on P3 ice alone: the parameters it drops at the end
  (`radar_moments.py` 837) are never stored for it (C132).
* The second pass for the total spectral width uses the air-density factor
  left by the last class for all classes: particles that all fall at one speed
  get a positive width (C133).
* Axis labels: sn, gr and ha get an empty class, pir, pid and pif are shown as
  pi, and any name containing "od" or "OD" (PRODPREC) is labelled as an optical
  depth (C134).

## Testing against wrong programs

`seeded/LOG.jsonl` has one line per edited definition.  The edits were made in
scratch copies by `tools/mutate.py`, which rebuilds every file and reports
the theorems that no longer check.  Edits that survived led to further
theorems (field "tightened") or were equivalent programs.

## Assumptions of each theorem

Letters as above; "-" means closed under the global context.

