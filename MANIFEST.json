{
 "claims": [
  {
   "property": "C01",
   "status": "proved",
   "theorems": [
    "C01_convective_prefix",
    "C01_request_defined"
   ],
   "note": ""
  },
  {
   "property": "C02",
   "status": "proved",
   "theorems": [
    "C02_convective_maximal_overlap"
   ],
   "note": ""
  },
  {
   "property": "C03",
   "status": "proved",
   "theorems": [
    "C03_number_of_subcolumns_fixed"
   ],
   "note": ""
  },
  {
   "property": "C04",
   "status": "proved",
   "theorems": [
    "C04_stratiform_nested"
   ],
   "note": ""
  },
  {
   "property": "C05",
   "status": "partial",
   "theorems": [
    "C05_stratiform_count_partial",
    "C05_stratiform_count_refuted"
   ],
   "note": "false of the code when a type is alone at a level below subcolumns holding both types, and when both types are overcast over convection; C49 gives the exact count in all cases"
  },
  {
   "property": "C06",
   "status": "partial",
   "theorems": [
    "C06_stratiform_not_convective_partial",
    "C06_stratiform_not_convective_refuted"
   ],
   "note": "false of the code exactly where both types are requested in every subcolumn"
  },
  {
   "property": "C07",
   "status": "partial",
   "theorems": [
    "C07_stratiform_overlap_partial",
    "C07_stratiform_overlap_refuted"
   ],
   "note": "false of the code when a type is alone at a level below subcolumns holding both types"
  },
  {
   "property": "C08",
   "status": "proved",
   "theorems": [
    "C08_stratiform_top_empty",
    "C08_precip_top_empty"
   ],
   "note": ""
  },
  {
   "property": "C09",
   "status": "proved",
   "theorems": [
    "C09_precip_count"
   ],
   "note": ""
  },
  {
   "property": "C10",
   "status": "proved",
   "theorems": [
    "C10_precip_nested"
   ],
   "note": ""
  },
  {
   "property": "C100",
   "status": "proved",
   "theorems": [
    "C100_instrument_tables",
    "C100_temperature_and_model",
    "C100_defaults",
    "C100_unknown_site",
    "C100_string_first_fails"
   ],
   "note": ""
  },
  {
   "property": "C101",
   "status": "proved",
   "theorems": [
    "C101_modele_reads",
    "C101_range_must_be_datetime",
    "C101_range_without_a_step",
    "C101_vertical_dimension",
    "C101_dimensions"
   ],
   "note": ""
  },
  {
   "property": "C102",
   "status": "proved",
   "theorems": [
    "C102_dharma_reads",
    "C102_range_must_be_datetime",
    "C102_dimensions"
   ],
   "note": "box on ascending coordinates"
  },
  {
   "property": "C103",
   "status": "proved",
   "theorems": [
    "C103_wrf_reads",
    "C103_unknown_scheme",
    "C103_dimensions"
   ],
   "note": "height and temperature come from wrf-python and are arguments; box on latitude by row, longitude by column"
  },
  {
   "property": "C104",
   "status": "partial",
   "theorems": [
    "C104_row_inside_box_refuted",
    "C104_box_partial"
   ],
   "note": "refuted for the row closest to the upper edge; exact rows in C103"
  },
  {
   "property": "C105",
   "status": "partial",
   "theorems": [
    "C105_nssl_refuted",
    "C105_densities_partial"
   ],
   "note": "refuted for 'NSSL'; holds for 'nssl'"
  },
  {
   "property": "C106",
   "status": "partial",
   "theorems": [
    "C106_pir_refuted",
    "C106_radii_partial",
    "C106_fractions"
   ],
   "note": "refuted for the class pir"
  },
  {
   "property": "C107",
   "status": "partial",
   "theorems": [
    "C107_same_string_refuted",
    "C107_names_partial"
   ],
   "note": "refuted for one string appended to both dimensions (always ValueError); proved where the strings differ and occur in no other dimension"
  },
  {
   "property": "C108",
   "status": "proved",
   "theorems": [
    "C108_subdomains",
    "C108_nothing_appended",
    "C108_field_missing"
   ],
   "note": ""
  },
  {
   "property": "C109",
   "status": "proved",
   "theorems": [
    "C109_mean",
    "C109_order_free",
    "C109_geometric"
   ],
   "note": ""
  },
  {
   "property": "C11",
   "status": "proved",
   "theorems": [
    "C11_precip_continues"
   ],
   "note": ""
  },
  {
   "property": "C110",
   "status": "proved",
   "theorems": [
    "C110_profile",
    "C110_grid_field",
    "C110_instrument"
   ],
   "note": "times when no step, or one step of one subcolumn, remains: see C113; masks over infinite values: see C111"
  },
  {
   "property": "C111",
   "status": "partial",
   "theorems": [
    "C111_open_mask_refuted",
    "C111_mask_partial"
   ],
   "note": "refuted when a field holds infinite values (reflectivity of empty cells): with any mask they count as zero signal, without one they are left out; proved for masks where no infinite value is visible"
  },
  {
   "property": "C112",
   "status": "partial",
   "theorems": [
    "C112_band",
    "C112_band_reflectivity",
    "C112_units_partial",
    "C112_equal_values",
    "C112_geometric_units_refuted",
    "C112_geometric_equal_values_refuted"
   ],
   "note": "refuted for geometric averaging: the dimensionless geometric deviation is added to and subtracted from the mean, so equal values u get the band u-1..u+1 in any units"
  },
  {
   "property": "C113",
   "status": "partial",
   "theorems": [
    "C113_one_time_refuted",
    "C113_one_subcolumn_refuted",
    "C113_one_time_partial"
   ],
   "note": "refuted for fields without subcolumns and for one subcolumn (always UnboundLocalError); proved for two or more subcolumns"
  },
  {
   "property": "C114",
   "status": "partial",
   "theorems": [
    "C114_place",
    "C114_bad_index",
    "C114_no_place",
    "C114_numpy_index_refuted",
    "C114_switch_refuted"
   ],
   "note": "the place shown first is proved; refuted: switching afterwards never changes anything, and a numpy integer index is ignored"
  },
  {
   "property": "C115",
   "status": "proved",
   "theorems": [
    "C115_signals"
   ],
   "note": ""
  },
  {
   "property": "C116",
   "status": "proved",
   "theorems": [
    "C116_curtain",
    "C116_masked",
    "C116_instrument",
    "C116_instrument_masked"
   ],
   "note": ""
  },
  {
   "property": "C117",
   "status": "partial",
   "theorems": [
    "C117_hatched_partial",
    "C117_negative_refuted",
    "C117_no_mask_refuted",
    "C117_other_shape"
   ],
   "note": "proved for masks without negative entries; refuted: negative entries are hatched though not hidden, hatching without a mask hatches everything, a mask of another shape is ignored without hatching and fails with it"
  },
  {
   "property": "C118",
   "status": "partial",
   "theorems": [
    "C118_default_title_refuted",
    "C118_log_limits_refuted",
    "C118_instrument_limits_refuted",
    "C118_given_partial"
   ],
   "note": "refuted: without a title numeric times fail, and logarithmic colours without both limits fail; proved with title and both limits"
  },
  {
   "property": "C119",
   "status": "proved",
   "theorems": [
    "C119_profile"
   ],
   "note": ""
  },
  {
   "property": "C12",
   "status": "proved",
   "theorems": [
    "C12_precip_cloudy_first"
   ],
   "note": ""
  },
  {
   "property": "C120",
   "status": "partial",
   "theorems": [
    "C120_mixing_ratio",
    "C120_pressure_refuted"
   ],
   "note": "proved for heights; refuted for pressure levels, whose labels are divided by 1000 too"
  },
  {
   "property": "C121",
   "status": "partial",
   "theorems": [
    "C121_cloud_fraction",
    "C121_scattering_ratio",
    "C121_single_refuted"
   ],
   "note": "proved for two or more times and levels; refuted for a single one, which always fails"
  },
  {
   "property": "C122",
   "status": "partial",
   "theorems": [
    "C122_cloud_fraction_refuted",
    "C122_scattering_ratio_refuted",
    "C122_history_partial"
   ],
   "note": "refuted: zeros of the displayed column become NaN in the caller's array; exactly what a sequence of displays changes is proved"
  },
  {
   "property": "C123",
   "status": "proved",
   "theorems": [
    "C123_class_colours"
   ],
   "note": ""
  },
  {
   "property": "C124",
   "status": "proved",
   "theorems": [
    "C124_signals",
    "C124_attenuated",
    "C124_ratio",
    "C124_mixing_ratios",
    "C124_cloud_precipitation",
    "C124_cell_times"
   ],
   "note": ""
  },
  {
   "property": "C125",
   "status": "partial",
   "theorems": [
    "C125_kept_partial",
    "C125_one_subcolumn_refuted",
    "C125_mixing_ratio_refuted"
   ],
   "note": "refuted with one subcolumn (missing values and mixing ratios of zero become NaN in the model); proved for any other number"
  },
  {
   "property": "C126",
   "status": "partial",
   "theorems": [
    "C126_unattenuated_partial",
    "C126_unattenuated_keywords_refuted",
    "C126_attenuated_refuted",
    "C126_radar_cfad_refuted",
    "C126_lidar_cfad_refuted"
   ],
   "note": "proved for the limits of the signature of the unattenuated display; refuted elsewhere: limits are ignored or the call fails"
  },
  {
   "property": "C127",
   "status": "partial",
   "theorems": [
    "C127_radar",
    "C127_lidar",
    "C127_heights_refuted",
    "C127_heights_partial"
   ],
   "note": "values and bins proved; the heights given are not used, right only for centres 0.24, 0.72, ... km"
  },
  {
   "property": "C128",
   "status": "partial",
   "theorems": [
    "C128_saved",
    "C128_saves",
    "C128_bins_refuted"
   ],
   "note": "fields and everything kept proved; refuted: the bins are not stored"
  },
  {
   "property": "C129",
   "status": "proved",
   "theorems": [
    "C129_p3_bulk_lidar",
    "C129_p3_bulk_radar"
   ],
   "note": ""
  },
  {
   "property": "C13",
   "status": "proved",
   "theorems": [
    "C13_stratiform_schedule",
    "C13_precip_schedule",
    "C13_columns_once"
   ],
   "note": ""
  },
  {
   "property": "C130",
   "status": "proved",
   "theorems": [
    "C130_p3_micro_lidar",
    "C130_p3_micro_radar"
   ],
   "note": ""
  },
  {
   "property": "C131",
   "status": "partial",
   "theorems": [
    "C131_p3_lidar_repeat_refuted",
    "C131_p3_radar_repeat_refuted",
    "C79_lidar_second_call"
   ],
   "note": "refuted for P3 ice: no later call that includes it succeeds; proved for the lidar and classes with a gamma distribution"
  },
  {
   "property": "C132",
   "status": "partial",
   "theorems": [
    "C132_fewer_classes_partial",
    "C132_p3_ice_alone_refuted"
   ],
   "note": "proved for the lidar and classes with a gamma distribution; refuted for the radar and P3 ice alone"
  },
  {
   "property": "C133",
   "status": "partial",
   "theorems": [
    "C133_total_spectrum_partial",
    "C133_total_reflectivity",
    "C133_total_width_refuted"
   ],
   "note": "the reflectivity is proved in full; the mean for the classes from cl on (C83 refutes the rest); the width is refuted when the air-density factors of the classes differ, proved when one factor is right for all"
  },
  {
   "property": "C134",
   "status": "partial",
   "theorems": [
    "C134_moment_labels_partial",
    "C134_own_labels_partial",
    "C134_any_name",
    "C134_other_classes_refuted",
    "C134_foreign_field_refuted"
   ],
   "note": "proved for the five classes listed in the code and for names containing no quantity; refuted for sn, gr, ha, pir, pid, pif and for names that contain the letters of a quantity"
  },
  {
   "property": "C135",
   "status": "proved",
   "theorems": [
    "C135_sizes_agree",
    "C135_start",
    "C135_number_kept",
    "C135_setter",
    "C135_set_then_generate",
    "C135_removal",
    "C135_removal_keeps"
   ],
   "note": "invariant over histories; nothing is assumed about inputs or draws"
  },
  {
   "property": "C136",
   "status": "proved",
   "theorems": [
    "C136_gas_fields",
    "C136_humidity_without_effect",
    "C136_vapour_line_missed"
   ],
   "note": ""
  },
  {
   "property": "C137",
   "status": "proved",
   "theorems": [
    "C137_molecular_values"
   ],
   "note": "the other fields follow from these by C47 and C67"
  },
  {
   "property": "C138",
   "status": "partial",
   "theorems": [
    "C138_missing_masses_partial",
    "C138_present_masses_refuted"
   ],
   "note": "refuted: one missing class removes all of its phase's mass in that cell from the column ratio"
  },
  {
   "property": "C139",
   "status": "proved",
   "theorems": [
    "C139_ratio_of_means"
   ],
   "note": "for layers above the lowest, those that do not overlap the lowest old layer (see C42)"
  },
  {
   "property": "C14",
   "status": "partial",
   "theorems": [
    "C14_qn_schedule_partial",
    "C14_qn_schedule_refuted"
   ],
   "note": "false of the code for chunked variable distribution of two or more columns; C50 gives the exact placement"
  },
  {
   "property": "C140",
   "status": "partial",
   "theorems": [
    "C140_direction",
    "C140_eta",
    "C140_limit_partial",
    "C140_ice_default",
    "C140_ice_by_cloud_type",
    "C140_radar_options",
    "C140_lidar_options"
   ],
   "note": "ext_OD: only without classification, since the classification takes the instrument's own limit (C26) whatever the caller passes"
  },
  {
   "property": "C141",
   "status": "proved",
   "theorems": [
    "C141_in_air"
   ],
   "note": "index of the medium within 1e-10; the solver is a parameter of the model"
  },
  {
   "property": "C142",
   "status": "partial",
   "theorems": [
    "C142_switch_partial",
    "C142_place_refuted"
   ],
   "note": "proved for models without latitude and longitude dimensions; for others no place is chosen, so fields keep these dimensions (refuted)"
  },
  {
   "property": "C143",
   "status": "proved",
   "theorems": [
    "C143_drop_ratio",
    "C143_larger_is_flatter"
   ],
   "note": ""
  },
  {
   "property": "C144",
   "status": "proved",
   "theorems": [
    "C144_default_classes",
    "C144_no_classes"
   ],
   "note": ""
  },
  {
   "property": "C145",
   "status": "proved",
   "theorems": [
    "C145_fields_kept",
    "C145_subcolumns_kept"
   ],
   "note": ""
  },
  {
   "property": "C146",
   "status": "proved",
   "theorems": [
    "C146_lidar_after_radar",
    "C146_radar_after_lidar",
    "C146_either_order"
   ],
   "note": ""
  },
  {
   "property": "C147",
   "status": "proved",
   "theorems": [
    "C147_simulate_again"
   ],
   "note": ""
  },
  {
   "property": "C148",
   "status": "proved",
   "theorems": [
    "C148_any_schedule"
   ],
   "note": ""
  },
  {
   "property": "C15",
   "status": "proved",
   "theorems": [
    "C15_uniform_values",
    "C15_uniform_mass"
   ],
   "note": ""
  },
  {
   "property": "C16",
   "status": "proved",
   "theorems": [
    "C16_number_values"
   ],
   "note": "more than one subcolumn"
  },
  {
   "property": "C17",
   "status": "proved",
   "theorems": [
    "C17_variable_conserves"
   ],
   "note": ""
  },
  {
   "property": "C18",
   "status": "partial",
   "theorems": [
    "C18_variable_returns_partial",
    "C18_variable_returns_refuted"
   ],
   "note": "false of the code; C51 gives the exact condition"
  },
  {
   "property": "C19",
   "status": "partial",
   "theorems": [
    "C19_off_stratiform_partial",
    "C19_off_precip_partial",
    "C19_off_mixing_ratio_partial",
    "C19_off_convective_refuted"
   ],
   "note": "convective generation with one subcolumn always raises ValueError"
  },
  {
   "property": "C20",
   "status": "partial",
   "theorems": [
    "C20_order_enforced_partial",
    "C20_missing_liquid_refuted",
    "C20_failed_call_unchanged_refuted"
   ],
   "note": "a missing liquid field raises TypeError, and a failed precipitation call can leave the subcolumn number set; C53 bounds what any failed call changes"
  },
  {
   "property": "C21",
   "status": "proved",
   "theorems": [
    "C21_optical_depth",
    "C21_optical_depth_monotone"
   ],
   "note": ""
  },
  {
   "property": "C22",
   "status": "proved",
   "theorems": [
    "C22_C23_totals",
    "C22_attenuation_bounds",
    "C22_no_attenuation_at_0",
    "C22_attenuation_decreasing"
   ],
   "note": ""
  },
  {
   "property": "C23",
   "status": "proved",
   "theorems": [
    "C22_C23_totals"
   ],
   "note": ""
  },
  {
   "property": "C24",
   "status": "partial",
   "theorems": [
    "C24_weighted_mean_partial",
    "C24_mean_bounds_partial",
    "C24_caller_table_ignored",
    "C24_caller_table_refuted"
   ],
   "note": "the mean is over the model's own table; the caller's table is never used"
  },
  {
   "property": "C25",
   "status": "proved",
   "theorems": [
    "C25_extinction_mask"
   ],
   "note": ""
  },
  {
   "property": "C26",
   "status": "proved",
   "theorems": [
    "C26_lidar_phase_class",
    "C26_not_a_lidar",
    "C26_no_thresholds"
   ],
   "note": ""
  },
  {
   "property": "C27",
   "status": "proved",
   "theorems": [
    "C27_cosp_mask",
    "C27_four_values",
    "C27_default_curves",
    "C27_only_HSRL"
   ],
   "note": ""
  },
  {
   "property": "C28",
   "status": "proved",
   "theorems": [
    "C28_radar_phase_class"
   ],
   "note": ""
  },
  {
   "property": "C29",
   "status": "proved",
   "theorems": [
    "C29_frequency_ratio",
    "C29_frequency_bounds",
    "C29_numerator_below",
    "C29_mass_ratio",
    "C29_model_mass_ratio",
    "C29_mass_bounds"
   ],
   "note": ""
  },
  {
   "property": "C30",
   "status": "proved",
   "theorems": [
    "C30_total_reflectivity",
    "C30_nothing_is_nan",
    "C30_attenuated_total"
   ],
   "note": ""
  },
  {
   "property": "C31",
   "status": "partial",
   "theorems": [
    "C31_mask_partial",
    "C31_no_signal_is_unmarked",
    "C31_no_signal_refuted"
   ],
   "note": "refuted for cells without a signal: they are never marked"
  },
  {
   "property": "C32",
   "status": "partial",
   "theorems": [
    "C32_range_law",
    "C32_range_law_shape",
    "C32_driver_reference",
    "C32_driver_reference_refuted",
    "C32_driver_keyword_alone"
   ],
   "note": "range law proved for the function and for a whole simulation; the driver ignores ref_rng unless a keyword reg_rng is also passed (refuted)"
  },
  {
   "property": "C33",
   "status": "proved",
   "theorems": [
    "C33_transmittance",
    "C33_transmittance_value"
   ],
   "note": ""
  },
  {
   "property": "C34",
   "status": "partial",
   "theorems": [
    "C34_lidar_totals_are_sums",
    "C34_lidar_class_order_partial",
    "C34_lidar_class_order_refuted",
    "C34_radar_contributions",
    "C34_radar_empirical_total",
    "C34_radar_class_order_partial",
    "C34_radar_class_order_refuted"
   ],
   "note": "totals proved; order independence refuted for the extinction of the empirical radar method and for lidar CESM/P3 rain without size-distribution fields, proved otherwise"
  },
  {
   "property": "C35",
   "status": "partial",
   "theorems": [
    "C35_lidar_repeat_partial",
    "C35_radar_repeat_partial",
    "C35_microphysics_refuted"
   ],
   "note": "proved for the empirical and bulk methods; refuted for the microphysics method, where a second call adds every class to the totals again (exact values: C79, C84)"
  },
  {
   "property": "C36",
   "status": "proved",
   "theorems": [
    "C36_stack_unstack",
    "C36_fields_made_while_stacked",
    "C36_single_column",
    "C36_coordinates",
    "C36_time_added",
    "C36_unstack_unstacked"
   ],
   "note": ""
  },
  {
   "property": "C37",
   "status": "proved",
   "theorems": [
    "C37_finalize",
    "C37_finalize_twice"
   ],
   "note": ""
  },
  {
   "property": "C38",
   "status": "proved",
   "theorems": [
    "C38_remove",
    "C38_remove_keeps"
   ],
   "note": ""
  },
  {
   "property": "C39",
   "status": "proved",
   "theorems": [
    "C39_clamp",
    "C39_clamp_value"
   ],
   "note": ""
  },
  {
   "property": "C40",
   "status": "proved",
   "theorems": [
    "C40_crop"
   ],
   "note": ""
  },
  {
   "property": "C41",
   "status": "proved",
   "theorems": [
    "C41_number_and_mass",
    "C41_shape",
    "C41_no_condensate"
   ],
   "note": "integral identities over (0,oo); scipy's gamma is only assumed to be the gamma function at the two points used"
  },
  {
   "property": "C42",
   "status": "partial",
   "theorems": [
    "C42_weighted_mean_partial",
    "C42_between_partial",
    "C42_linear_partial",
    "C42_weighted_mean_refuted",
    "C42_bottom_layer_dropped",
    "C42_succeeds",
    "C42_too_high"
   ],
   "note": "refuted for new layers, other than the lowest, that overlap the lowest old layer"
  },
  {
   "property": "C43",
   "status": "proved",
   "theorems": [
    "C43_lidar_cloud_fraction"
   ],
   "note": ""
  },
  {
   "property": "C44",
   "status": "proved",
   "theorems": [
    "C44_row",
    "C44_empty_row",
    "C44_time_mean",
    "C44_time_bound"
   ],
   "note": "a level without any value in range is NaN before the average over times, where it counts as 0"
  },
  {
   "property": "C45",
   "status": "proved",
   "theorems": [
    "C45_from_frequency",
    "C45_from_wavelength",
    "C45_neither",
    "C45_both_given_unchecked"
   ],
   "note": ""
  },
  {
   "property": "C46",
   "status": "partial",
   "theorems": [
    "C46_radar_order",
    "C46_lidar_order_partial",
    "C46_lidar_order_refuted",
    "C46_radar_empirical",
    "C46_lidar_empirical",
    "C46_unsupported_class",
    "C46_generation_only",
    "C54_driver_generates"
   ],
   "note": "no step after the moments fails, for all three methods; refuted for a lidar when hyd_types leaves out the model's first class; generation steps: C54"
  },
  {
   "property": "C47",
   "status": "proved",
   "theorems": [
    "C47_optical_depth",
    "C47_transmittance",
    "C47_directions"
   ],
   "note": "pressure positive, temperature above absolute zero, heights increasing, wavelength off the two poles of the dispersion formula"
  },
  {
   "property": "C48",
   "status": "proved",
   "theorems": [
    "C48_saved_fields",
    "C48_saved_coords"
   ],
   "note": ""
  },
  {
   "property": "C49",
   "status": "proved",
   "theorems": [
    "C49_stratiform_count_exact"
   ],
   "note": ""
  },
  {
   "property": "C50",
   "status": "proved",
   "theorems": [
    "C50_chunked_placement"
   ],
   "note": ""
  },
  {
   "property": "C51",
   "status": "proved",
   "theorems": [
    "C51_variable_returns_exactly"
   ],
   "note": ""
  },
  {
   "property": "C52",
   "status": "proved",
   "theorems": [
    "C52_chunk_below_one_never_returns"
   ],
   "note": ""
  },
  {
   "property": "C53",
   "status": "proved",
   "theorems": [
    "C53_calls_change_only_their_outputs",
    "C53_history_changes_only_outputs"
   ],
   "note": ""
  },
  {
   "property": "C54",
   "status": "proved",
   "theorems": [
    "C54_driver_generates"
   ],
   "note": ""
  },
  {
   "property": "C55",
   "status": "proved",
   "theorems": [
    "C55_save_load"
   ],
   "note": ""
  },
  {
   "property": "C56",
   "status": "proved",
   "theorems": [
    "C56_clear_air_ratio",
    "C56_clear_air_above_one",
    "C56_clear_air_is_one_refuted"
   ],
   "note": ""
  },
  {
   "property": "C57",
   "status": "proved",
   "theorems": [
    "C57_last_class_attenuates",
    "C57_ice_last_no_attenuation",
    "C57_liquid_last_value"
   ],
   "note": ""
  },
  {
   "property": "C58",
   "status": "proved",
   "theorems": [
    "C58_gap_hides_attenuation"
   ],
   "note": ""
  },
  {
   "property": "C59",
   "status": "proved",
   "theorems": [
    "C59_oxygen_frequency_free",
    "C59_oxygen_line_missed"
   ],
   "note": ""
  },
  {
   "property": "C60",
   "status": "partial",
   "theorems": [
    "C60_empirical_call_partial",
    "C60_bulk_from_surface_partial",
    "C60_bulk_transmittance_value_partial",
    "C60_microphysics_partial",
    "C60_bulk_from_above_refuted"
   ],
   "note": "proved for the empirical and microphysics methods, and for the bulk method from the surface (value of the transmittance included); refuted for the bulk method with the instrument above"
  },
  {
   "property": "C61",
   "status": "proved",
   "theorems": [
    "C61_other_lidars_not_classified"
   ],
   "note": ""
  },
  {
   "property": "C62",
   "status": "partial",
   "theorems": [
    "C62_shape_refuted",
    "C62_shape_insensitive",
    "C62_shape_value"
   ],
   "note": "refuted: the concentration is divided by 1e6 once more, which makes the parameter constant for all practical purposes"
  },
  {
   "property": "C63",
   "status": "proved",
   "theorems": [
    "C63_layer_above_level",
    "C63_layers_ordered"
   ],
   "note": ""
  },
  {
   "property": "C64",
   "status": "proved",
   "theorems": [
    "C64_below_ground_is_clear",
    "C64_below_ground_fraction"
   ],
   "note": ""
  },
  {
   "property": "C65",
   "status": "proved",
   "theorems": [
    "C65_all_missing",
    "C65_partly_missing"
   ],
   "note": ""
  },
  {
   "property": "C66",
   "status": "proved",
   "theorems": [
    "C66_decibel_mean",
    "C66_linear_mean_refuted"
   ],
   "note": ""
  },
  {
   "property": "C67",
   "status": "proved",
   "theorems": [
    "C67_C68_consistent_fields"
   ],
   "note": ""
  },
  {
   "property": "C68",
   "status": "proved",
   "theorems": [
    "C67_C68_consistent_fields"
   ],
   "note": "a defect of the code, stated as it is"
  },
  {
   "property": "C69",
   "status": "partial",
   "theorems": [
    "C69_lidar_direction",
    "C69_direction_refuted"
   ],
   "note": "refuted for OD_from_sfc=False: the molecular part is always counted from the surface"
  },
  {
   "property": "C70",
   "status": "proved",
   "theorems": [
    "C70_reading_succeeds",
    "C70_values_stay_with_their_box",
    "C70_height_stays_with_its_values"
   ],
   "note": "netCDF reading, appended names, load_processed and time_dim=ncol not modelled"
  },
  {
   "property": "C71",
   "status": "proved",
   "theorems": [
    "C71_air",
    "C71_numbers_and_radii",
    "C71_in_numbers"
   ],
   "note": ""
  },
  {
   "property": "C72",
   "status": "proved",
   "theorems": [
    "C72_p3_fields"
   ],
   "note": ""
  },
  {
   "property": "C73",
   "status": "partial",
   "theorems": [
    "C73_truncated_ice_removed_refuted",
    "C73_ice_mass_never_changed"
   ],
   "note": "refuted: the result of where() is discarded"
  },
  {
   "property": "C74",
   "status": "proved",
   "theorems": [
    "C74_empirical_extinction_and_backscatter"
   ],
   "note": ""
  },
  {
   "property": "C75",
   "status": "proved",
   "theorems": [
    "C75_empirical_reflectivity"
   ],
   "note": "temperature above -150 C, where the fitted formulas have a positive denominator"
  },
  {
   "property": "C76",
   "status": "proved",
   "theorems": [
    "C76_bulk_extinction_and_backscatter"
   ],
   "note": "liquid classes and ice of the CESM and ModelE families; the P3 ice surface is not covered; the uppermost level is computed with a negative depth (see C60/C35 notes in DESIGN.md)"
  },
  {
   "property": "C77",
   "status": "proved",
   "theorems": [
    "C77_bulk_reflectivity"
   ],
   "note": "as C76"
  },
  {
   "property": "C78",
   "status": "proved",
   "theorems": [
    "C78_lidar_class_values",
    "C78_lidar_no_condensate",
    "C78_lidar_not_negative"
   ],
   "note": "stratiform call; every class but P3 ice; scipy's gamma assumed to be the gamma function at the two points used"
  },
  {
   "property": "C79",
   "status": "proved",
   "theorems": [
    "C79_lidar_totals",
    "C79_lidar_second_call"
   ],
   "note": ""
  },
  {
   "property": "C80",
   "status": "proved",
   "theorems": [
    "C80_lidar_class_order"
   ],
   "note": ""
  },
  {
   "property": "C81",
   "status": "proved",
   "theorems": [
    "C81_lidar_schedule",
    "C81_radar_schedule"
   ],
   "note": "chunk lengths of at least 1"
  },
  {
   "property": "C82",
   "status": "proved",
   "theorems": [
    "C82_radar_class_values",
    "C82_radar_no_condensate",
    "C82_radar_velocity_range"
   ],
   "note": "every class but P3 ice; tables with positive backscatter"
  },
  {
   "property": "C83",
   "status": "partial",
   "theorems": [
    "C83_total_velocity_partial",
    "C83_total_velocity_refuted",
    "C83_classes_before_cl_dropped",
    "C83_without_cl_none_dropped"
   ],
   "note": "refuted: classes listed before cl are missing from the mean; proved for the classes from cl on"
  },
  {
   "property": "C84",
   "status": "proved",
   "theorems": [
    "C84_radar_total",
    "C84_radar_second_call"
   ],
   "note": ""
  },
  {
   "property": "C85",
   "status": "partial",
   "theorems": [
    "C85_radar_class_order_partial",
    "C85_radar_class_order_refuted"
   ],
   "note": "refuted for the total velocity; proved for class fields and total reflectivity"
  },
  {
   "property": "C86",
   "status": "proved",
   "theorems": [
    "C86_only_last_class_attenuates",
    "C86_transmittance_of_last_class"
   ],
   "note": "a defect of the code, stated as it is"
  },
  {
   "property": "C87",
   "status": "proved",
   "theorems": [
    "C87_nssl_only_cloud_liquid"
   ],
   "note": "a defect of the code, stated as it is"
  },
  {
   "property": "C88",
   "status": "proved",
   "theorems": [
    "C88_loading_keeps_values",
    "C88_contradiction_fails"
   ],
   "note": "same lengths and index coordinates in both datasets"
  },
  {
   "property": "C89",
   "status": "proved",
   "theorems": [
    "C89_reading_a_time_range",
    "C89_values_in_the_range"
   ],
   "note": ""
  },
  {
   "property": "C90",
   "status": "proved",
   "theorems": [
    "C90_trilinear",
    "C90_every_point_has_a_cell",
    "C90_table_values_at_the_nodes",
    "C90_between_table_values",
    "C90_missing_off_the_grid"
   ],
   "note": "axes with at least two increasing points"
  },
  {
   "property": "C91",
   "status": "proved",
   "theorems": [
    "C91_reading_succeeds",
    "C91_inputs_in_table_range",
    "C91_slope_from_table",
    "C91_other_fields_kept",
    "C91_without_a_table"
   ],
   "note": ""
  },
  {
   "property": "C92",
   "status": "proved",
   "theorems": [
    "C92_one_particle"
   ],
   "note": "Gamma agrees with the gamma integral at the point used"
  },
  {
   "property": "C93",
   "status": "proved",
   "theorems": [
    "C93_water_index",
    "C93_ice_index"
   ],
   "note": ""
  },
  {
   "property": "C94",
   "status": "partial",
   "theorems": [
    "C94_ice_sections_partial",
    "C94_water_extinction_partial",
    "C94_water_backscatter_refuted"
   ],
   "note": "refuted for scattering and backscattering of water (exchanged, see C95)"
  },
  {
   "property": "C95",
   "status": "proved",
   "theorems": [
    "C95_water_exchanged",
    "C95_water_size_parameter",
    "C95_ice_size_parameter",
    "C95_diameters"
   ],
   "note": "a defect of the code, stated as it is; the Mie code is a function argument"
  },
  {
   "property": "C96",
   "status": "proved",
   "theorems": [
    "C96_mie_table",
    "C96_mie_sections",
    "C96_scattering_table_c6",
    "C96_scattering_table_mdad",
    "C96_bulk_table_c6",
    "C96_bulk_table_mdad",
    "C96_unknown_format"
   ],
   "note": "rows with one number per column"
  },
  {
   "property": "C97",
   "status": "proved",
   "theorems": [
    "C97_p3_table",
    "C97_velocities"
   ],
   "note": ""
  },
  {
   "property": "C98",
   "status": "proved",
   "theorems": [
    "C98_nssl_velocity",
    "C98_graupel_drag",
    "C98_any_capitalisation",
    "C98_other_classes_do_not_fall",
    "C98_missing"
   ],
   "note": ""
  },
  {
   "property": "C99",
   "status": "proved",
   "theorems": [
    "C99_thresholds_ordered",
    "C99_stronger_signal",
    "C99_class_boundaries"
   ],
   "note": ""
  }
 ]
}
