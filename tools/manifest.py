import json
C=[]
def c(prop, status, theorems, note=""):
    C.append(dict(property=prop, status=status, theorems=theorems, note=note))
c("C01","proved",["C01_convective_prefix","C01_request_defined"])
c("C02","proved",["C02_convective_maximal_overlap"])
c("C04","proved",["C04_stratiform_nested"])
c("C05","partial",["C05_stratiform_count_partial","C05_stratiform_count_refuted"],"false of the code when a type is alone at a level below subcolumns holding both types, and when both types are overcast over convection; C49 gives the exact count in all cases")
c("C06","partial",["C06_stratiform_not_convective_partial","C06_stratiform_not_convective_refuted"],"false of the code exactly where both types are requested in every subcolumn")
c("C07","partial",["C07_stratiform_overlap_partial","C07_stratiform_overlap_refuted"],"false of the code when a type is alone at a level below subcolumns holding both types")
c("C08","proved",["C08_stratiform_top_empty","C08_precip_top_empty"])
c("C09","proved",["C09_precip_count"])
c("C10","proved",["C10_precip_nested"])
c("C11","proved",["C11_precip_continues"])
c("C12","proved",["C12_precip_cloudy_first"])
c("C13","proved",["C13_stratiform_schedule","C13_precip_schedule","C13_columns_once"])
c("C49","proved",["C49_stratiform_count_exact"])
c("C14","partial",["C14_qn_schedule_partial","C14_qn_schedule_refuted"],"false of the code for chunked variable distribution of two or more columns; C50 gives the exact placement")
c("C15","proved",["C15_uniform_values","C15_uniform_mass"])
c("C16","proved",["C16_number_values"],"more than one subcolumn")
c("C17","proved",["C17_variable_conserves"])
c("C18","partial",["C18_variable_returns_partial","C18_variable_returns_refuted"],"false of the code; C51 gives the exact condition")
c("C19","partial",["C19_off_stratiform_partial","C19_off_precip_partial","C19_off_mixing_ratio_partial","C19_off_convective_refuted"],"convective generation with one subcolumn always raises ValueError")
c("C50","proved",["C50_chunked_placement"])
c("C51","proved",["C51_variable_returns_exactly"])
c("C52","proved",["C52_chunk_below_one_never_returns"])
c("C03","proved",["C03_number_of_subcolumns_fixed"])
c("C20","partial",["C20_order_enforced_partial","C20_missing_liquid_refuted","C20_failed_call_unchanged_refuted"],"a missing liquid field raises TypeError, and a failed precipitation call can leave the subcolumn number set; C53 bounds what any failed call changes")
c("C53","proved",["C53_calls_change_only_their_outputs","C53_history_changes_only_outputs"])
c("C54","proved",["C54_driver_generates"])
c("C21","proved",["C21_optical_depth","C21_optical_depth_monotone"])
c("C22","proved",["C22_C23_totals","C22_attenuation_bounds","C22_no_attenuation_at_0","C22_attenuation_decreasing"])
c("C23","proved",["C22_C23_totals"])
c("C24","partial",["C24_weighted_mean_partial","C24_mean_bounds_partial","C24_caller_table_ignored","C24_caller_table_refuted"],"the mean is over the model's own table; the caller's table is never used")
c("C25","proved",["C25_extinction_mask"])
c("C30","proved",["C30_total_reflectivity","C30_nothing_is_nan","C30_attenuated_total"])
c("C31","partial",["C31_mask_partial","C31_no_signal_is_unmarked","C31_no_signal_refuted"],"refuted for cells without a signal: they are never marked")
c("C32","partial",["C32_range_law","C32_range_law_shape","C32_driver_reference","C32_driver_reference_refuted","C32_driver_keyword_alone"],"range law proved for the function and for a whole simulation; the driver ignores ref_rng unless a keyword reg_rng is also passed (refuted)")
c("C33","proved",["C33_transmittance","C33_transmittance_value"])
c("C34","partial",["C34_lidar_totals_are_sums","C34_lidar_class_order_partial","C34_lidar_class_order_refuted","C34_radar_contributions","C34_radar_empirical_total","C34_radar_class_order_partial","C34_radar_class_order_refuted"],"totals proved; order independence refuted for the extinction of the empirical radar method and for lidar CESM/P3 rain without size-distribution fields, proved otherwise")
c("C35","partial",["C35_lidar_repeat_partial","C35_radar_repeat_partial","C35_microphysics_refuted"],"proved for the empirical and bulk methods; refuted for the microphysics method, where a second call adds every class to the totals again (exact values: C79, C84)")
c("C36","proved",["C36_stack_unstack","C36_fields_made_while_stacked","C36_single_column","C36_coordinates","C36_time_added","C36_unstack_unstacked"])
c("C37","proved",["C37_finalize","C37_finalize_twice"])
c("C38","proved",["C38_remove","C38_remove_keeps"])
c("C39","proved",["C39_clamp","C39_clamp_value"])
c("C40","proved",["C40_crop"])
c("C48","proved",["C48_saved_fields","C48_saved_coords"])
c("C55","proved",["C55_save_load"])
c("C26","proved",["C26_lidar_phase_class","C26_not_a_lidar","C26_no_thresholds"])
c("C27","proved",["C27_cosp_mask","C27_four_values","C27_default_curves","C27_only_HSRL"])
c("C28","proved",["C28_radar_phase_class"])
c("C29","proved",["C29_frequency_ratio","C29_frequency_bounds","C29_numerator_below","C29_mass_ratio","C29_model_mass_ratio","C29_mass_bounds"])
c("C56","proved",["C56_clear_air_ratio","C56_clear_air_above_one","C56_clear_air_is_one_refuted"])
c("C57","proved",["C57_last_class_attenuates","C57_ice_last_no_attenuation","C57_liquid_last_value"])
c("C58","proved",["C58_gap_hides_attenuation"])
c("C59","proved",["C59_oxygen_frequency_free","C59_oxygen_line_missed"])
c("C60","partial",["C60_empirical_call_partial","C60_bulk_from_surface_partial","C60_bulk_transmittance_value_partial","C60_microphysics_partial","C60_bulk_from_above_refuted"],"proved for the empirical and microphysics methods, and for the bulk method from the surface (value of the transmittance included); refuted for the bulk method with the instrument above")
c("C45","proved",["C45_from_frequency","C45_from_wavelength","C45_neither","C45_both_given_unchecked"])
c("C46","partial",["C46_radar_order","C46_lidar_order_partial","C46_lidar_order_refuted","C46_radar_empirical","C46_lidar_empirical","C46_unsupported_class","C46_generation_only","C54_driver_generates"],"no step after the moments fails, for all three methods; refuted for a lidar when hyd_types leaves out the model's first class; generation steps: C54")
c("C61","proved",["C61_other_lidars_not_classified"])
c("C41","proved",["C41_number_and_mass","C41_shape","C41_no_condensate"],"integral identities over (0,oo); scipy's gamma is only assumed to be the gamma function at the two points used")
c("C62","partial",["C62_shape_refuted","C62_shape_insensitive","C62_shape_value"],"refuted: the concentration is divided by 1e6 once more, which makes the parameter constant for all practical purposes")
c("C42","partial",["C42_weighted_mean_partial","C42_between_partial","C42_linear_partial","C42_weighted_mean_refuted","C42_bottom_layer_dropped","C42_succeeds","C42_too_high"],"refuted for new layers, other than the lowest, that overlap the lowest old layer")
c("C43","proved",["C43_lidar_cloud_fraction"])
c("C44","proved",["C44_row","C44_empty_row","C44_time_mean","C44_time_bound"],"a level without any value in range is NaN before the average over times, where it counts as 0")
c("C63","proved",["C63_layer_above_level","C63_layers_ordered"])
c("C64","proved",["C64_below_ground_is_clear","C64_below_ground_fraction"])
c("C65","proved",["C65_all_missing","C65_partly_missing"])
c("C66","proved",["C66_decibel_mean","C66_linear_mean_refuted"])
c("C47","proved",["C47_optical_depth","C47_transmittance","C47_directions"],"pressure positive, temperature above absolute zero, heights increasing, wavelength off the two poles of the dispersion formula")
c("C67","proved",["C67_C68_consistent_fields"])
c("C68","proved",["C67_C68_consistent_fields"],"a defect of the code, stated as it is")
c("C69","partial",["C69_lidar_direction","C69_direction_refuted"],"refuted for OD_from_sfc=False: the molecular part is always counted from the surface")
c("C70","proved",["C70_reading_succeeds","C70_values_stay_with_their_box","C70_height_stays_with_its_values"],"netCDF reading, appended names, load_processed and time_dim=ncol not modelled")
c("C71","proved",["C71_air","C71_numbers_and_radii","C71_in_numbers"])
c("C72","proved",["C72_p3_fields"])
c("C73","partial",["C73_truncated_ice_removed_refuted","C73_ice_mass_never_changed"],"refuted: the result of where() is discarded")
c("C74","proved",["C74_empirical_extinction_and_backscatter"])
c("C75","proved",["C75_empirical_reflectivity"],"temperature above -150 C, where the fitted formulas have a positive denominator")
c("C76","proved",["C76_bulk_extinction_and_backscatter"],"liquid classes and ice of the CESM and ModelE families; the P3 ice surface is not covered; the uppermost level is computed with a negative depth (see C60/C35 notes in DESIGN.md)")
c("C77","proved",["C77_bulk_reflectivity"],"as C76")
c("C78","proved",["C78_lidar_class_values","C78_lidar_no_condensate","C78_lidar_not_negative"],"stratiform call; every class but P3 ice; scipy's gamma assumed to be the gamma function at the two points used")
c("C79","proved",["C79_lidar_totals","C79_lidar_second_call"])
c("C80","proved",["C80_lidar_class_order"])
c("C81","proved",["C81_lidar_schedule","C81_radar_schedule"],"chunk lengths of at least 1")
c("C82","proved",["C82_radar_class_values","C82_radar_no_condensate","C82_radar_velocity_range"],"every class but P3 ice; tables with positive backscatter")
c("C83","partial",["C83_total_velocity_partial","C83_total_velocity_refuted","C83_classes_before_cl_dropped","C83_without_cl_none_dropped"],"refuted: classes listed before cl are missing from the mean; proved for the classes from cl on")
c("C84","proved",["C84_radar_total","C84_radar_second_call"])
c("C85","partial",["C85_radar_class_order_partial","C85_radar_class_order_refuted"],"refuted for the total velocity; proved for class fields and total reflectivity")
c("C86","proved",["C86_only_last_class_attenuates","C86_transmittance_of_last_class"],"a defect of the code, stated as it is")
c("C87","proved",["C87_nssl_only_cloud_liquid"],"a defect of the code, stated as it is")
c("C88","proved",["C88_loading_keeps_values","C88_contradiction_fails"],"same lengths and index coordinates in both datasets")
c("C89","proved",["C89_reading_a_time_range","C89_values_in_the_range"])
c("C90","proved",["C90_trilinear","C90_every_point_has_a_cell","C90_table_values_at_the_nodes","C90_between_table_values","C90_missing_off_the_grid"],"axes with at least two increasing points")
c("C91","proved",["C91_reading_succeeds","C91_inputs_in_table_range","C91_slope_from_table","C91_other_fields_kept","C91_without_a_table"])
c("C92","proved",["C92_one_particle"],"Gamma agrees with the gamma integral at the point used")
c("C93","proved",["C93_water_index","C93_ice_index"])
c("C94","partial",["C94_ice_sections_partial","C94_water_extinction_partial","C94_water_backscatter_refuted"],"refuted for scattering and backscattering of water (exchanged, see C95)")
c("C95","proved",["C95_water_exchanged","C95_water_size_parameter","C95_ice_size_parameter","C95_diameters"],"a defect of the code, stated as it is; the Mie code is a function argument")
c("C96","proved",["C96_mie_table","C96_mie_sections","C96_scattering_table_c6","C96_scattering_table_mdad","C96_bulk_table_c6","C96_bulk_table_mdad","C96_unknown_format"],"rows with one number per column")
c("C97","proved",["C97_p3_table","C97_velocities"])
c("C98","proved",["C98_nssl_velocity","C98_graupel_drag","C98_any_capitalisation","C98_other_classes_do_not_fall","C98_missing"])
c("C99","proved",["C99_thresholds_ordered","C99_stronger_signal","C99_class_boundaries"])
c("C100","proved",["C100_instrument_tables","C100_temperature_and_model","C100_defaults","C100_unknown_site","C100_string_first_fails"])
c("C101","proved",["C101_modele_reads","C101_range_must_be_datetime","C101_range_without_a_step","C101_vertical_dimension","C101_dimensions"])
c("C102","proved",["C102_dharma_reads","C102_range_must_be_datetime","C102_dimensions"],"box on ascending coordinates")
c("C103","proved",["C103_wrf_reads","C103_unknown_scheme","C103_dimensions"],"height and temperature come from wrf-python and are arguments; box on latitude by row, longitude by column")
c("C104","partial",["C104_row_inside_box_refuted","C104_box_partial"],"refuted for the row closest to the upper edge; exact rows in C103")
c("C105","partial",["C105_nssl_refuted","C105_densities_partial"],"refuted for 'NSSL'; holds for 'nssl'")
c("C106","partial",["C106_pir_refuted","C106_radii_partial","C106_fractions"],"refuted for the class pir")
c("C107","partial",["C107_same_string_refuted","C107_names_partial"],"refuted for one string appended to both dimensions (always ValueError); proved where the strings differ and occur in no other dimension")
c("C108","proved",["C108_subdomains","C108_nothing_appended","C108_field_missing"])
c("C109","proved",["C109_mean","C109_order_free","C109_geometric"])
c("C110","proved",["C110_profile","C110_grid_field","C110_instrument"],"times when no step, or one step of one subcolumn, remains: see C113; masks over infinite values: see C111")
c("C111","partial",["C111_open_mask_refuted","C111_mask_partial"],"refuted when a field holds infinite values (reflectivity of empty cells): with any mask they count as zero signal, without one they are left out; proved for masks where no infinite value is visible")
c("C112","partial",["C112_band","C112_band_reflectivity","C112_units_partial","C112_equal_values","C112_geometric_units_refuted","C112_geometric_equal_values_refuted"],"refuted for geometric averaging: the dimensionless geometric deviation is added to and subtracted from the mean, so equal values u get the band u-1..u+1 in any units")
c("C113","partial",["C113_one_time_refuted","C113_one_subcolumn_refuted","C113_one_time_partial"],"refuted for fields without subcolumns and for one subcolumn (always UnboundLocalError); proved for two or more subcolumns")
c("C114","partial",["C114_place","C114_bad_index","C114_no_place","C114_numpy_index_refuted","C114_switch_refuted"],"the place shown first is proved; refuted: switching afterwards never changes anything, and a numpy integer index is ignored")
c("C115","proved",["C115_signals"])
c("C116","proved",["C116_curtain","C116_masked","C116_instrument","C116_instrument_masked"])
c("C117","partial",["C117_hatched_partial","C117_negative_refuted","C117_no_mask_refuted","C117_other_shape"],"proved for masks without negative entries; refuted: negative entries are hatched though not hidden, hatching without a mask hatches everything, a mask of another shape is ignored without hatching and fails with it")
c("C118","partial",["C118_default_title_refuted","C118_log_limits_refuted","C118_instrument_limits_refuted","C118_given_partial"],"refuted: without a title numeric times fail, and logarithmic colours without both limits fail; proved with title and both limits")
c("C119","proved",["C119_profile"])
c("C120","partial",["C120_mixing_ratio","C120_pressure_refuted"],"proved for heights; refuted for pressure levels, whose labels are divided by 1000 too")
c("C121","partial",["C121_cloud_fraction","C121_scattering_ratio","C121_single_refuted"],"proved for two or more times and levels; refuted for a single one, which always fails")
c("C122","partial",["C122_cloud_fraction_refuted","C122_scattering_ratio_refuted","C122_history_partial"],"refuted: zeros of the displayed column become NaN in the caller's array; exactly what a sequence of displays changes is proved")
c("C123","proved",["C123_class_colours"])
c("C124","proved",["C124_signals","C124_attenuated","C124_ratio","C124_mixing_ratios","C124_cloud_precipitation","C124_cell_times"])
c("C125","partial",["C125_kept_partial","C125_one_subcolumn_refuted","C125_mixing_ratio_refuted"],"refuted with one subcolumn (missing values and mixing ratios of zero become NaN in the model); proved for any other number")
c("C126","partial",["C126_unattenuated_partial","C126_unattenuated_keywords_refuted","C126_attenuated_refuted","C126_radar_cfad_refuted","C126_lidar_cfad_refuted"],"proved for the limits of the signature of the unattenuated display; refuted elsewhere: limits are ignored or the call fails")
c("C127","partial",["C127_radar","C127_lidar","C127_heights_refuted","C127_heights_partial"],"values and bins proved; the heights given are not used, right only for centres 0.24, 0.72, ... km")
c("C128","partial",["C128_saved","C128_saves","C128_bins_refuted"],"fields and everything kept proved; refuted: the bins are not stored")

c("C129","proved",["C129_p3_bulk_lidar","C129_p3_bulk_radar"])
c("C130","proved",["C130_p3_micro_lidar","C130_p3_micro_radar"])
c("C131","partial",["C131_p3_lidar_repeat_refuted","C131_p3_radar_repeat_refuted","C79_lidar_second_call"],"refuted for P3 ice: no later call that includes it succeeds; proved for the lidar and classes with a gamma distribution")
c("C132","partial",["C132_fewer_classes_partial","C132_p3_ice_alone_refuted"],"proved for the lidar and classes with a gamma distribution; refuted for the radar and P3 ice alone")
c("C133","partial",["C133_total_spectrum_partial","C133_total_reflectivity","C133_total_width_refuted"],"the reflectivity is proved in full; the mean for the classes from cl on (C83 refutes the rest); the width is refuted when the air-density factors of the classes differ, proved when one factor is right for all")

c("C134","partial",["C134_moment_labels_partial","C134_own_labels_partial","C134_any_name","C134_other_classes_refuted","C134_foreign_field_refuted"],"proved for the five classes listed in the code and for names containing no quantity; refuted for sn, gr, ha, pir, pid, pif and for names that contain the letters of a quantity")

c("C135","proved",["C135_sizes_agree","C135_start","C135_number_kept","C135_setter","C135_set_then_generate","C135_removal","C135_removal_keeps"],"invariant over histories; nothing is assumed about inputs or draws")

c("C136","proved",["C136_gas_fields","C136_humidity_without_effect","C136_vapour_line_missed"],"")

c("C137","proved",["C137_molecular_values"],"the other fields follow from these by C47 and C67")

c("C138","partial",["C138_missing_masses_partial","C138_present_masses_refuted"],"refuted: one missing class removes all of its phase's mass in that cell from the column ratio")
c("C139","proved",["C139_ratio_of_means"],"for layers above the lowest, those that do not overlap the lowest old layer (see C42)")

c("C140","partial",["C140_direction","C140_eta","C140_limit_partial","C140_ice_default","C140_ice_by_cloud_type","C140_radar_options","C140_lidar_options"],"ext_OD: only without classification, since the classification takes the instrument's own limit (C26) whatever the caller passes")

c("C141","proved",["C141_in_air"],"index of the medium within 1e-10; the solver is a parameter of the model")
c("C142","partial",["C142_switch_partial","C142_place_refuted"],"proved for models without latitude and longitude dimensions; for others no place is chosen, so fields keep these dimensions (refuted)")

c("C143","proved",["C143_drop_ratio","C143_larger_is_flatter"])

c("C144","proved",["C144_default_classes","C144_no_classes"])
c("C145","proved",["C145_fields_kept","C145_subcolumns_kept"])

c("C146","proved",["C146_lidar_after_radar","C146_radar_after_lidar","C146_either_order"])

c("C147","proved",["C147_simulate_again"])
c("C148","proved",["C148_any_schedule"])
# MORE
C.sort(key=lambda x:x["property"])
open("/verif/MANIFEST.json","w").write(json.dumps({"claims":C},indent=1)+"\n")
