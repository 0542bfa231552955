{
 "claims": [
  {
   "property": "C01",
   "status": "proved",
   "theorems": [
    "C01_requirements_establish_valid_table",
    "C01_valid_table_is_unchanged",
    "C01_widths_change_minimally",
    "C01_all_zero_widths_raise",
    "C01_requirements_hold_in_binary64"
   ],
   "note": "If all total widths are zero the check raises IndexError and gives no table (C01_all_zero_widths_raise). Also in binary64 with rounding, for numbers up to 2^42 in size (F_Require.v, Flocq)."
  },
  {
   "property": "C02",
   "status": "proved",
   "theorems": [
    "C02_repair_is_small",
    "C02_repair_in_binary64"
   ],
   "note": "In binary64 (numbers up to 2^42) a repaired row is at most 2^-8 per step above an original value; C02_large_numbers_case shows that the repair fails from 2^45 on."
  },
  {
   "property": "C03",
   "status": "proved",
   "theorems": [
    "C03_mask_is_record_highs",
    "C03_order_only",
    "C03_longer_series",
    "C03_unknown_levels"
   ],
   "note": ""
  },
  {
   "property": "C04",
   "status": "proved",
   "theorems": [
    "C04_flow_width_is_greatest_envelope",
    "C61_rows_describe_retained_time_steps",
    "C04_flow_width_in_binary64",
    "C04_binary64_case"
   ],
   "note": "exact rational arithmetic With rounding the same holds of the computed widths, and they are at most the computed total widths (C04_flow_width_in_binary64)."
  },
  {
   "property": "C05",
   "status": "proved",
   "theorems": [
    "C05_extension_below_initial_level",
    "C05_levels_in_binary64",
    "C05_cells_in_binary64",
    "C05_extension_in_binary64",
    "C05_binary64_case",
    "C05_tiny_cell_in_binary64_refuted",
    "C05_unknown_level_in_binary64"
   ],
   "note": " Exact arithmetic in C05_extension_below_initial_level; the binary64 theorems (F_Below.v) state the same with rounding, for any order in which numpy adds n values. With rounding the widths are ordered if the areas are at most 2^34 times as large together as the smallest one; C05_tiny_cell_in_binary64_refuted shows that a cell of 2^-64 square metre can break the order by a unit in the last place."
  },
  {
   "property": "C06",
   "status": "proved",
   "theorems": [
    "C06_columns_aligned",
    "C06_geometry_is_built",
    "C06_lake_step_outside_data_raises"
   ],
   "note": "alignment holds for every input on which the geometry is built; it is built whenever the lake step lies inside the remaining time steps, and aborts with IndexError otherwise"
  },
  {
   "property": "C07",
   "status": "proved",
   "theorems": [
    "C07_volume_is_trapezoidal_integral",
    "C07_flow_volume_within_total_volume",
    "C07_volumes_in_binary64",
    "C07_case_binary64"
   ],
   "note": "Also with binary64 rounding (C07_volumes_in_binary64): the volumes start at 0, never decrease and the flow volume never exceeds the total volume, as long as nothing overflows."
  },
  {
   "property": "C08",
   "status": "partial",
   "theorems": [
    "C08_volume_is_sum_over_cells",
    "C08_volume_nonnegative_and_monotone_partial",
    "C08_volume_nonnegative_refuted",
    "C08_volumes_in_binary64"
   ],
   "note": "sum formula proved; non-negativity is false of the code (a pool deeper than the centre that dries), proved when no counted face loses more than the initial centre depth Monotonicity also holds exactly with rounding, for every order of summation (C08_volumes_in_binary64)."
  },
  {
   "property": "C09",
   "status": "partial",
   "theorems": [
    "C09_lake_detection_and_activation",
    "C09_unknown_depths",
    "C09_detection_in_binary64",
    "C09_activation_in_binary64",
    "C09_binary64_case",
    "C09_dried_lake_refuted"
   ],
   "note": "Violated in one respect: an activated lake is left out again while it is dry (C09_dried_lake_refuted); C09_lake_detection_and_activation gives the exact rule. Exact arithmetic in C09_lake_detection_and_activation; the binary64 theorems (F_Lakes.v) meet the thresholds up to 2^-57 metre. C09_unknown_depths extends the rule to series with missing depths: one missing depth ends the rest of a lake."
  },
  {
   "property": "C10",
   "status": "proved",
   "theorems": [
    "C10_default_method_decision_rule",
    "C10_mean_method_decision_rule",
    "C10_unknown_method_is_default",
    "C10_dry_cells_never_convey",
    "C10_higher_thresholds_convey_less",
    "C10_fastest_wet_cell_conveys",
    "C10_missing_velocities_refuted",
    "C10_smoothed_velocity",
    "C10_mean_method_closed_rule",
    "C10_mean_method_fastest_conveys",
    "C10_mean_method_case"
   ],
   "note": "for numeric velocities; with missing velocities the three highest are polluted by the missing ones (refuted edge); the rolling mean of method 0 is an oracle Method 0 with the rolling mean of pandas (M_Rolling.v) in place of an oracle: the smoothed velocity is the mean of the known velocities of ten neighbouring faces, and the rule is closed (C10_mean_method_closed_rule)."
  },
  {
   "property": "C100",
   "status": "partial",
   "theorems": [
    "C100_a_finer_mesh_partial",
    "C100_section_widths",
    "C100_case",
    "C100_flow_width_refuted",
    "C100_floodplain_base_refuted",
    "C100_few_faces_refuted"
   ],
   "note": "Proved for whatever data in the faces and conveyance detection methods 1 and up: levels, total widths, wet areas, total volumes (2D and 1D) and section widths are the same for every division of the faces; flow widths, areas and volumes as well if the mean of the three highest velocities is the same in every time step. Violated: this mean counts faces, so that dividing the fast face trebles the threshold and the flow width at the top falls from 9 to 3 m with the default thresholds (C100_flow_width_refuted); the floodplain base level is a mean over faces without regard to area (C100_floodplain_base_refuted); a control volume of nine faces is left out and the same one with a face divided is not (C100_few_faces_refuted). Flow links (roughness) are not part of the division. Strongest true fragment: C100_a_finer_mesh_partial."
  },
  {
   "property": "C101",
   "status": "partial",
   "theorems": [
    "C101_the_falling_limb_does_not_matter_partial",
    "C101_cross_section_partial",
    "C101_case",
    "C101_roughness_refuted",
    "C101_mean_method_refuted"
   ],
   "note": "True for everything but the roughness with the maximum velocity method: all columns, widths, levels, crest level, section widths and base level are equal, and the roughness tables have the same rows followed by one row per additional map. False for the roughness at the common levels: numpy.interp gets levels that do not rise, and levels above the last one get the friction of the last time step (C101_roughness_refuted). False for the legacy method, which compares with the mean velocity over all output maps (C101_mean_method_refuted). Assumes a correction that depends only on columns and volumes, SkipMaps and LakeTimesteps not negative."
  },
  {
   "property": "C102",
   "status": "proved",
   "theorems": [
    "C102_the_length_of_the_reach_does_not_matter",
    "C102_the_search_sees_the_same_errors",
    "C102_the_dike_of_the_longer_reach",
    "C102_case",
    "C102_dike_case",
    "C102_below_a_cubic_metre_refuted"
   ],
   "note": "T_Reach.v compares two runs of generate_cross_section whose face areas and length differ by the factor k, for every conveyance method; the search for the dike is a parameter that gives the same crest and k times the volumes. T_ReachDike.v shows that the modelled search is given the same errors, stage by stage, and that the dike found is the same, if the external optimiser follows the unit of volume and all measured volumes are at least 1 m3. C102_below_a_cubic_metre_refuted records what happens otherwise: the errors are divided by at least 1 m3, so that the weight of such a row depends on the length."
  },
  {
   "property": "C103",
   "status": "partial",
   "theorems": [
    "C103_the_output_interval_does_not_matter_partial",
    "C103_fewer_maps_do_not_narrow_the_flow_width",
    "C103_roughness_of_fewer_maps",
    "C103_case",
    "C103_lakes_refuted",
    "C103_flow_width_refuted"
   ],
   "note": "Proved (T_Interval.v) for rising water at the location, every conveyance method but the legacy one, and lakes that begin to rise at the same map in both runs: all columns except the flow width, and the roughness tables, have the rows of the remaining maps. The flow width is a minimum over the rows above and hence not smaller with fewer maps, and equal if the widths rise. Refuted in general: a lake counts once it rises by more than 1 mm between two maps, so that a lake that rises slowly counts only with a long output interval; a face that does not convey during one map narrows the flow width at all levels below."
  },
  {
   "property": "C104",
   "status": "partial",
   "theorems": [
    "C104_selected_cross_sections",
    "C104_selection_does_not_matter_partial",
    "C104_order_of_the_selection",
    "C104_generated_cross_sections_are_known",
    "C104_roughness_refuted",
    "C104_case"
   ],
   "note": "A location of a selection gives the cross-section of the whole run, in the order of the selection, and a location outside the selection cannot stop the run (C104_selected_cross_sections). After the interpolation of the friction all is the same but the roughness tables; these have the same friction at all levels that both have, and are the same if the selection has the lowest and the highest level of the run (C104_selection_does_not_matter_partial), in particular for a selection of all locations in another order (C104_order_of_the_selection). The levels are known for all cross-sections with water at their centre (C104_generated_cross_sections_are_known). Refuted for the roughness at every level: the levels of the tables start at the lowest level of the selected cross-sections with steps of 0.1 m and end below the highest one. A cross-section with levels between 1.00 and 1.05 m and a friction of 40 to 60 has a friction of 40 at all levels if it is computed alone, and of 50 at 1.05 m and 60 at higher levels if another cross-section has levels up to 3 m (C104_roughness_refuted)."
  },
  {
   "property": "C105",
   "status": "partial",
   "theorems": [
    "C105_control_volumes_partial",
    "C105_results_in_the_order_of_the_file",
    "C104_order_of_the_selection",
    "C105_ties_refuted",
    "C105_case"
   ],
   "note": "For every search that gives a nearest location the model data after the import are the same for every order of the rows, with and without regions and section polygons, if no face or link has two nearest locations with different ids (in one region); a search may take any of several nearest ones (C105_control_volumes_partial). The same locations in another order give the same cross-sections in that order (C105_results_in_the_order_of_the_file), also after the interpolation of the friction (C104_order_of_the_selection). Refuted for a face in the middle between two locations, with the search that takes the first of the nearest samples: it changes its control volume with the order of the rows (C105_ties_refuted; sklearn documents that ties depend on the order of the samples)."
  },
  {
   "property": "C106",
   "status": "proved",
   "theorems": [
    "C106_coordinate_system",
    "C106_model_data",
    "C106_control_volume",
    "C106_cross_section",
    "C106_centre",
    "C106_convex_polygons",
    "C106_case"
   ],
   "note": "Whole chain from the map file, the locations and the polygons to the cross-section, for rotations with rational cosine and sine, reflections and translations, in exact arithmetic: the moved files give the moved model data with the same caches, the same control volumes, and the same cross-section with every configuration (also the legacy conveyance method) but for the coordinates of the points in the output files. Hypotheses: the tests of shapely and MeshKernel depend on the geometry alone (satisfied by the test for convex polygons, C106_convex_polygons), the square root depends on the value, no face or link has two nearest locations. The centre face is the same if only one face is nearest to the location (C106_centre)."
  },
  {
   "property": "C107",
   "status": "partial",
   "theorems": [
    "C107_first",
    "C107_csv_only",
    "C107_repeat",
    "C107_second",
    "C107_same",
    "C107_pairs",
    "C107_offset",
    "C107_arguments",
    "C107_no_files",
    "C107_kept",
    "C107_times",
    "C107_access",
    "C107_refuted",
    "C107_case",
    "C107_columns",
    "C107_station_without_discharge",
    "C107_times_that_are_no_times",
    "C107_midnight"
   ],
   "note": "State machine of the output directory (M_Reader.v). In an empty directory the data is that of the two files (C107_first). After a comparison that succeeded, from any state of the directory, later ones read only the csv files, write nothing, cannot fail and do not depend on the files that are named (C107_repeat, C107_csv_only); in a new directory they have the data of the first one as it comes from a csv file (C107_second), and exactly the same if numbers and names survive the csv format and the times are whole seconds and not all midnight (C107_same). One file of a pair is never combined with new data (C107_pairs); files are not overwritten (C107_kept). Refuted for daily results at midnight: pandas writes dates without a time, which the date_format of the reader does not accept, so the index is strings and every use of the 2D tables, and after the first time of the 1D tables, is a TypeError (C107_refuted; C107_times and C107_access give the exact condition)."
  },
  {
   "property": "C108",
   "status": "partial",
   "theorems": [
    "C108_lines_of_the_moments",
    "C108_same_time_partial",
    "C108_statistics_partial",
    "C108_other_times_refuted",
    "C108_junction_refuted",
    "C108_equal_levels_refuted",
    "C108_case",
    "C108_the_same_statistics",
    "C108_difference_by_label",
    "C108_different_numbers_of_stations"
   ],
   "note": "The lines of differences are characterised for all tables (C108_lines_of_the_moments: the record of the moment is looked up in each table). They compare one time if both models have the same output times (C108_same_time_partial), and the statistics of one station if the river kilometres differ and no two stations have equal levels (C108_statistics_partial). Refuted: with 2D results at noon and 1D results at midnight equal water levels show a difference (C108_other_times_refuted); two stations at the river kilometre of a junction are both drawn with the levels of the first one (C108_junction_refuted); a station with the same 1D levels as another one has no difference (C108_equal_levels_refuted)."
  },
  {
   "property": "C109",
   "status": "proved",
   "theorems": [
    "C109_lines",
    "C109_order",
    "C109_each_station_once",
    "C109_case"
   ],
   "note": "For statistics without infinities; the numbers before they are written with two decimals."
  },
  {
   "property": "C11",
   "status": "proved",
   "theorems": [
    "C11_reduction_keeps_sub_profile",
    "C11_checked_and_reduced_table_is_valid",
    "C11_without_ties_exactly_n_rows",
    "C11_fewer_than_two_points_empties_profile",
    "C11_empty_profile_is_kept",
    "C11_reduction_for_any_rounding",
    "C11_reduction_in_binary64",
    "C11_checked_and_reduced_table_in_binary64",
    "C11_binary64_case"
   ],
   "note": "Finite columns; with a limit of 0 or 1 points the profile is emptied (separate theorem). The reduction is also proved for any ordered numbers with finite areas and for binary64 with every operation of the areas rounded (levels and widths up to 2^500), alone and after the requirement check."
  },
  {
   "property": "C110",
   "status": "partial",
   "theorems": [
    "C110_rows_and_moments",
    "C110_moments",
    "C110_stations",
    "C110_row_for_each_station_partial",
    "C110_window_refuted",
    "C110_agreement_refuted",
    "C110_case"
   ],
   "note": "The contents of the heat map are characterised for all tables (C110_rows_and_moments): the moments are those at which some station has both levels (C110_moments), each row is that of a station at its river kilometre and the differences of each station occur (C110_stations). There is a row for each station if no two stations have the same differences (C110_row_for_each_station_partial). Refuted: the window is not used, so moments before the start are shown (C110_window_refuted); stations at which both models agree have equal rows and only the first one is shown (C110_agreement_refuted)."
  },
  {
   "property": "C111",
   "status": "partial",
   "theorems": [
    "C111_statistics_of_the_lines_partial",
    "C111_lines",
    "C111_statistics_stay",
    "C111_after_writing_partial",
    "C111_other_window_refuted"
   ],
   "note": "The lines are always those of the window (C111_lines). The statistics are those of the lines for the first figure of an object (C111_statistics_of_the_lines_partial) and after statistics_to_file in the same window (C111_after_writing_partial). They are kept after that: in any other window the figures show the statistics of the first window (C111_statistics_stay, C111_other_window_refuted)."
  },
  {
   "property": "C112",
   "status": "partial",
   "theorems": [
    "C112_shares",
    "C112_figure",
    "C112_two_stations",
    "C112_missing_refuted",
    "C112_error_refuted",
    "C112_case"
   ],
   "note": "The lines and the shares are those of the values in the window (C112_figure), the shares of known discharges with a total other than zero add to 100 and lie between 0 and 100 (C112_shares), and other numbers of stations are refused (C112_two_stations). Refuted: a missing discharge counts as zero in the total, so that the other station shows 100 percent (C112_missing_refuted); the error is drawn for the second station only and for all moments, also outside the window (C112_error_refuted)."
  },
  {
   "property": "C113",
   "status": "partial",
   "theorems": [
    "C113_dry_faces_partial",
    "C113_dry_faces_that_stand_still",
    "C113_dry_links",
    "C113_cross_section_partial",
    "C113_case",
    "C113_no_data_velocity_refuted",
    "C113_sections_refuted",
    "C113_few_faces_refuted",
    "C113_new_section_refuted"
   ],
   "note": "Proved for the conveyance detection methods 1 and up: levels, total widths, wet areas and total volumes are the same for whatever dry faces; the whole geometry is the same if the dry faces stand still and the other velocities are known (C113_dry_faces_that_stand_still); links without friction in known sections change no roughness table (C113_dry_links); with section names from polygons and ten faces or more the whole cross-section is the same (C113_cross_section_partial). Violated: a dry face with the no-data value as velocity has a speed of 1412.8 m/s and stops the other faces from conveying (C113_no_data_velocity_refuted); with the numbers of the variance classification dry faces count in the section widths and in the base level of the floodplain (C113_sections_refuted); they count in the minimum of ten faces (C113_few_faces_refuted); a dry link in a section of its own adds a table with friction zero (C113_new_section_refuted)."
  },
  {
   "property": "C114",
   "status": "proved",
   "theorems": [
    "C114_skipping_is_leaving_out",
    "C114_skipped_maps_do_not_matter",
    "C114_settings_are_accepted_alike",
    "C114_case"
   ],
   "note": "Equality of results and exceptions of the modelled run for one location, for a non-negative SkipMaps that leaves a map. The warning for skipping more than half of the maps may be absent for the shorter file; the theorem on the settings says so."
  },
  {
   "property": "C115",
   "status": "partial",
   "theorems": [
    "C115_unknown_style",
    "C115_styled_figure",
    "C115_legend",
    "C115_lines_differ",
    "C115_again_partial",
    "C115_van_veen",
    "C115_time_axes_refuted",
    "C115_second_legend_refuted",
    "C115_labels_without_handles_refuted",
    "C115_case",
    "C115_every_minus_sign",
    "C115_other_labels_are_kept",
    "C115_the_styles"
   ],
   "note": "What is shown, the legend of labelled lines in order, the effect on the settings and the refusal of unknown styles are proved for every figure. Dates are shown exactly on axes whose first tick label is no number; refuted as a test for times: years are taken for numbers and names for times. A second application adds a second legend (the axes stay the same, C115_again_partial), and additional labels without a handle are dropped. float(), tick labels and installed locales are oracles; matplotlib's drawing is not modelled."
  },
  {
   "property": "C116",
   "status": "partial",
   "theorems": [
    "C116_repeated_map_partial",
    "C116_repeated_map_that_is_skipped",
    "C116_friction_on_common_levels_partial",
    "C116_same_lake_time_step_refuted",
    "C116_mean_velocity_refuted",
    "C116_case",
    "C116_friction_case"
   ],
   "note": "From the map file to one cross-section, exceptions included, for ConveyanceDetectionMethod other than 0, depths that are not minus infinity and LakeTimeSteps counted on past the copy: everything is the same but the roughness tables, which have the repeated row; on the common levels they are the same where the levels of a table rise. Refuted: with LakeTimeSteps unchanged an earlier map is looked at and other faces become lakes; with method 0 the mean over the maps changes. The search for the summer dike is an oracle that is assumed not to look at the roughness levels."
  },
  {
   "property": "C117",
   "status": "partial",
   "theorems": [
    "C117_files_of_an_overwriting_run_partial",
    "C117_running_twice_is_running_once",
    "C117_what_is_left_of_an_earlier_run",
    "C117_old_roughness_refuted",
    "C117_no_cross_sections_refuted"
   ],
   "note": "For every input and directory each file but the log is that of a run in an empty directory exactly if the run opens it or it was not there, and a file that is not opened stays as it was (C117_files_of_an_overwriting_run_partial); a second run changes no file (C117_running_twice_is_running_once). After a run without errors that has generated cross-sections only roughness_test.csv and the roughness files of sections without tables can be old (C117_what_is_left_of_an_earlier_run). Violated: such a roughness file stays next to the new ones (C117_old_roughness_refuted), and if no cross-section is generated all old results stay although the run returns True (C117_no_cross_sections_refuted). Assumes that reading the input, the map output and the envelopes open their files before they write to them."
  },
  {
   "property": "C118",
   "status": "partial",
   "theorems": [
    "C118_elsewhere_does_not_matter_partial",
    "C118_case",
    "C118_chezy_elsewhere_refuted"
   ],
   "note": "Holds if section polygons are given, or if the Chezy values of the last map are the same everywhere: then every area, bed level, depth, level, velocity and link Chezy value outside the control volume is without influence, also on the exception raised. Violated without section polygons: the variance split of faces and links looks at the whole model, and a smooth bed in another control volume changes the main section from 10 m to 2.1 m. The roughness on common levels of several cross-sections is C104."
  },
  {
   "property": "C119",
   "status": "partial",
   "theorems": [
    "C119_roughness_does_not_change_the_geometry_partial",
    "C119_section_polygons_partial",
    "C119_case",
    "C119_section_widths_refuted"
   ],
   "note": "Levels, total and flow widths, crest and extra areas are the same for all Chezy values. With section polygons only the roughness tables differ. Violated for the section widths without section polygons: faces are divided by their Chezy value, so one rough or smooth face changes the main section from 10 m to 2.1 m."
  },
  {
   "property": "C12",
   "status": "proved",
   "theorems": [
    "C12_thresholds_are_elimination_areas",
    "C12_exact_numbers"
   ],
   "note": "Exact rational areas. F_Simplify.v restates the simplifier for any kind of numbers; for exact numbers it is the same code."
  },
  {
   "property": "C120",
   "status": "partial",
   "theorems": [
    "C120_velocities_do_not_change_the_storage_partial",
    "C120_crest_from_total_volumes_partial",
    "C120_case",
    "C120_crest_with_other_methods_refuted"
   ],
   "note": "Holds for both conveyance methods if the dike search gives crest and extra total volume from the total volumes, which it does with SDOptimisationMethod 0 for every minimiser. Violated with the methods 1 and 2: the crest is fitted to the flow volumes as well. Section widths follow the flow width and are not part of the claim."
  },
  {
   "property": "C121",
   "status": "proved",
   "theorems": [
    "C121_weighing_changes_the_tables_only",
    "C121_tolerance_changes_the_base_only",
    "C121_dike_settings_change_the_dike_only",
    "C121_points_change_the_simplified_columns_only",
    "C121_minimum_width_changes_widths_only",
    "C121_conveyance_settings_do_not_change_the_storage",
    "C121_case"
   ],
   "note": "The number of points is for tables with finite values (C80); fewer than two points give no cross-section at all, see C11. With optimisation method 0 the conveyance settings do not change the crest either (C120)."
  },
  {
   "property": "C122",
   "status": "partial",
   "theorems": [
    "C122_lower_thresholds_widen_the_flow_partial",
    "C122_repaired_widths_partial",
    "C122_case",
    "C122_repair_refuted"
   ],
   "note": "Violated by the repair of widths that do not increase: a width equal to the one below is raised by a millimetre, a width that is larger by less is kept, so that a small slow face that counts with the lower thresholds only can make the width smaller (C122_repair_refuted, a whole cross-section). Proved: before the repair every flow width is the same or larger, for both methods, and levels, total widths and total volumes are the same; after the repair and before simplification row i is smaller by i millimetres at most. For method 0 the mean velocity per step is an oracle that is assumed to be nonnegative or missing."
  },
  {
   "property": "C123",
   "status": "partial",
   "theorems": [
    "C123_widths_add_up_to_the_mesh_partial",
    "C123_case",
    "C123_few_faces_refuted"
   ],
   "note": "Violated: a control volume with fewer than ten faces gives no cross-section, so that its area is in none of them (C123_few_faces_refuted), and the repair of the widths (C02) adds millimetres. Proved for the total widths as they are computed from the 2D results, before the repair, from the map file on: import, division over the locations, selection, lakes, time steps and rows. The geometries of all locations are assumed to be computed, as they are for a control volume of any size."
  },
  {
   "property": "C124",
   "status": "partial",
   "theorems": [
    "C124_volumes_add_up_to_the_mesh_partial",
    "C124_case",
    "C124_deeper_faces_refuted"
   ],
   "note": "Violated: of a face that is deeper at the start than the face at the location the extra depth is left out at all steps (C124_deeper_faces_refuted), of a lake the initial depth; both are meant by the code but not made up for elsewhere. Proved from the map file on for control volumes without lakes and without such deeper faces: then the 2D volumes in the rows of a step add up to area times depth over the whole mesh."
  },
  {
   "property": "C125",
   "status": "proved",
   "theorems": [
    "C125_unit_of_velocity",
    "C125_mean_over_faces",
    "C125_case",
    "C125_unit_of_velocity_in_the_map_file",
    "C125_square_root"
   ],
   "note": "Exact rational arithmetic; the smoothing and the mean of conveyance method 0 are oracles that are assumed to commute with a positive factor, which C125_mean_over_faces shows for a mean over the faces. In binary64 rounding may differ unless the factor is a power of two. C125_case: leaving the threshold in the old unit changes the flow width. For the map file the square root is an oracle that gives k times the root for k squared times a number; C125_square_root is one that is exact for squares. Both runs have to end without exception there."
  },
  {
   "property": "C126",
   "status": "proved",
   "theorems": [
    "C126_reference_level_and_clock",
    "C126_window",
    "C126_exchange",
    "C126_case"
   ],
   "note": "Exact rational arithmetic, per station; the standard deviation is compared by its square; a time occurs once in an index. C126_case: raising the 1D levels alone changes the bias."
  },
  {
   "property": "C127",
   "status": "proved",
   "theorems": [
    "C127_order_of_the_lines",
    "C127_load",
    "C127_case"
   ],
   "note": "For lines that do not start with a blank (see C91), remarks without a per cent sign, and files in which no section and no option occurs twice; files in which one does are refused (C75). Parser of the standard library is modelled, references of the form %(name)s are not."
  },
  {
   "property": "C128",
   "status": "proved",
   "theorems": [
    "C128_order_of_the_polygons",
    "C128_cross_sections",
    "C128_reading",
    "C128_overlap_matters",
    "C128_case"
   ],
   "note": "C128_overlap_matters shows that the condition on overlapping polygons is needed. Which exception a refused file raises and the order of the overlap warnings may depend on the order."
  },
  {
   "property": "C129",
   "status": "proved",
   "theorems": [
    "C129_reading",
    "C129_rings_and_labels",
    "C129_cross_sections",
    "C129_case"
   ],
   "note": "The attributes of a feature are compared after their names are made lower case; of two attributes with the same name the later one counts."
  },
  {
   "property": "C13",
   "status": "proved",
   "theorems": [
    "C13_reductions_are_nested",
    "C13_kept_rows_are_eliminated_last",
    "C13_queries_by_number_threshold_and_ratio",
    "C13_nested_for_any_rounding",
    "C13_nested_in_binary64"
   ],
   "note": " The same holds for every rounding of the areas and in binary64."
  },
  {
   "property": "C130",
   "status": "proved",
   "theorems": [
    "C130_order_of_the_links",
    "C130_unit_of_roughness",
    "C130_larger_values",
    "C130_unit_after_interpolation",
    "C130_case",
    "C130_dry_link_matters"
   ],
   "note": "C130_dry_link_matters shows that the condition on the links is needed: a value on a link that was dry takes part in the mean. The other weighing method always fails (C19)."
  },
  {
   "property": "C131",
   "status": "proved",
   "theorems": [
    "C131_axes_of_a_poly_line",
    "C131_units_of_a_table",
    "C131_case"
   ],
   "note": "In binary64 the areas are rounded, and points whose areas are nearly equal may be exchanged."
  },
  {
   "property": "C132",
   "status": "partial",
   "theorems": [
    "C132_order_and_origin",
    "C132_origin",
    "C132_earlier_labels",
    "C132_unit_refuted",
    "C132_case"
   ],
   "note": "Order, earlier labels and a common shift do not matter. The unit does: the candidates for the split are one unit apart (C132_unit_refuted)."
  },
  {
   "property": "C133",
   "status": "proved",
   "theorems": [
    "C133_rule_file",
    "C133_locations",
    "C133_two_rules_matter",
    "C133_case"
   ],
   "note": "C133_two_rules_matter shows that the condition on the branches is needed: of two lines for a branch the later one counts. No mutations were tried against these theorems."
  },
  {
   "property": "C14",
   "status": "proved",
   "theorems": [
    "C14_extra_volumes_are_consistent",
    "C14_unknown_method_is_method_zero",
    "C14_correction_is_defined",
    "C14_no_flow_volumes"
   ],
   "note": "Over the reals, for every optimiser."
  },
  {
   "property": "C15",
   "status": "partial",
   "theorems": [
    "C15_transition_is_a_smooth_step",
    "C15_share_in_binary64",
    "C15_overflow_in_binary64",
    "C15_strict_share_in_binary64_refuted"
   ],
   "note": "All parts are proved over the real numbers (C15_transition_is_a_smooth_step). With rounding the share lies between 0 and 1 and never decreases (C15_share_in_binary64), but it is not strictly below 1 nor strictly increasing: with the default transition height it is exactly 1 from about 1.9 m above the crest (C15_strict_share_in_binary64_refuted), and exactly 0 where the power overflows."
  },
  {
   "property": "C16",
   "status": "partial",
   "theorems": [
    "C16_section_widths_add_up",
    "C16_no_negative_width_refuted",
    "C16_section_widths_in_binary64",
    "C16_widths_in_binary64_refuted"
   ],
   "note": "Everything is proved except non-negativity of floodplain 1, which the code violates (refuted with a witness); a sufficient condition for it is proved. In binary64 both bounds hold up to 2^-26 for widths up to 2^20 (C16_section_widths_in_binary64), but not exactly (C16_widths_in_binary64_refuted: widths 8.7 and 2.4 with flow width 443.1 add up to 443.09999999999997, and a main channel that is set to 17.6 + 0.1 need not be at least 0.1 wider)."
  },
  {
   "property": "C17",
   "status": "partial",
   "theorems": [
    "C17_section_widths_follow_cells",
    "C17_polygon_sections_ignored",
    "C17_polygon_labels_refuted",
    "C17_alluvial_width_is_main",
    "C17_nonalluvial_width_refuted"
   ],
   "note": "Proved for the integer labels of the variance classifier; refuted for polygon labels, which are names and never match 1, 2, 3. The property nonalluvial_width of a cross-section is 0 always."
  },
  {
   "property": "C18",
   "status": "proved",
   "theorems": [
    "C18_floodplain_base_below_crest",
    "C18_polygon_sections_use_crest",
    "C18_missing_bed_levels_refuted"
   ],
   "note": "For known bed levels; if all floodplain bed levels are missing the base is NaN."
  },
  {
   "property": "C19",
   "status": "partial",
   "theorems": [
    "C19_friction_is_mean_of_nonzero",
    "C19_unknown_weighing_is_rejected",
    "C19_area_weighing_without_dry_links_partial",
    "C19_area_weighing_always_fails",
    "C19_area_weighing_fails_refuted",
    "C19_dry_link_zeroes_area_mean_refuted",
    "C19_area_of_a_link",
    "C19_mean_in_binary64",
    "C19_range_in_binary64_refuted",
    "C19_number_of_levels"
   ],
   "note": "Simple mean proved in full. The area weighted variant always raises on imported data and gives 0 when one link is dry (refuted); without dry links it is the weighted mean. In binary64 the mean of n values lies between the smallest times 1 - n 2^-53 and the largest times 1 + n 2^-52 for every order of summation (C19_mean_in_binary64), but not always between the smallest and largest (C19_range_in_binary64_refuted: three values of 51.2 average to 51.20000000000001). Levels and friction values of different numbers are refused with ValueError (C19_number_of_levels)."
  },
  {
   "property": "C20",
   "status": "proved",
   "theorems": [
    "C20_friction_tables_become_uniform",
    "C20_interpolation_keeps_table_points",
    "C20_empty_table_is_reported",
    "C20_single_level_empties_table_refuted",
    "C20_levels_in_binary64"
   ],
   "note": "For every search that brackets. If all levels of a section are equal the common level column is empty (np.arange excludes the stop level). With binary64 rounding the levels are 0.1 apart up to a millionth for levels up to 1024 m (C20_levels_in_binary64)."
  },
  {
   "property": "C21",
   "status": "partial",
   "theorems": [
    "C21_reading_gives_the_last_value_set",
    "C21_project_set_parameter_refuted"
   ],
   "note": "Holds for every history of IniFile calls. Refuted for Project.set_parameter on debug parameters: it writes only section parameters while get_parameter also reads debug."
  },
  {
   "property": "C22",
   "status": "proved",
   "theorems": [
    "C22_unknown_names_are_harmless",
    "C22_loaded_parameters",
    "C22_unknown_file_names_are_ignored",
    "C22_a_switch_is_on_exactly_for_true",
    "C22_switch_case",
    "C22_known_names"
   ],
   "note": "Setting in an unknown section raises KeyError (not covered by the statement). Every text converts to a switch: on exactly for the word true, so yes, on and 1 switch off and do not keep the default."
  },
  {
   "property": "C23",
   "status": "partial",
   "theorems": [
    "C23_printed_configuration_loads_back",
    "C23_percent_sign_refuted"
   ],
   "note": "Proved for every configuration of the template's shape whose values contain no percent sign (and floats whose printed form reads back); a percent sign makes the printed file unreadable. Parser of the standard library is modelled, %(name)s references are not."
  },
  {
   "property": "C24",
   "status": "proved",
   "theorems": [
    "C24_loading_twice_is_loading_once"
   ],
   "note": ""
  },
  {
   "property": "C25",
   "status": "partial",
   "theorems": [
    "C25_missing_sections_are_reported_refuted",
    "C25_internal_error_partial"
   ],
   "note": "The code violates the property: a missing [input] or [output] section leaves the constructor as AttributeError. C25_internal_error_partial is what holds: a parsable file lacking one of the sections is never used, and a missing section is the only way to the AttributeError."
  },
  {
   "property": "C26",
   "status": "partial",
   "theorems": [
    "C26_output_directory_partial",
    "C26_output_directory_refuted",
    "C26_opened_project_has_its_output_directory",
    "C26_asking_makes_the_output_directory",
    "C26_asking_case"
   ],
   "note": "True when the configuration file lies in the working directory or the value is absolute, and for the directory of a freshly opened project; otherwise the created directory differs from the used one."
  },
  {
   "property": "C27",
   "status": "partial",
   "theorems": [
    "C27_location_file_is_read_completely",
    "C27_missing_file",
    "C27_legacy_header_refuted"
   ],
   "note": "Every data line yields one entry in file order, only a non-numeric first line is skipped and later non-numeric lines raise, for all files of six- and five-column lines. Not proved in full because it is false for a five-column file with a header: the header line raises ValueError (witness proved)."
  },
  {
   "property": "C28",
   "status": "partial",
   "theorems": [
    "C28_location_file_round_trip",
    "C28_comma_in_the_name_refuted"
   ],
   "note": "For ids and branch names without comma and line end, and branch names without outer blanks (as the generator reads them). Refuted for a branch name with a comma, which the generator writes as it is: the file it writes is refused with a ValueError. float(text) is an oracle that reads a plain decimal text as the correctly rounded value of that decimal, ignores a line end and rejects the text x."
  },
  {
   "property": "C29",
   "status": "proved",
   "theorems": [
    "C29_transposition_keeps_every_value",
    "C29_records_by_name",
    "C29_ragged_columns_refuted"
   ],
   "note": "Proved for columns of equal length. The third theorem shows that the restriction is needed: with ragged columns values shift to the wrong name."
  },
  {
   "property": "C30",
   "status": "proved",
   "theorems": [
    "C30_selection_is_the_control_volume",
    "C30_members",
    "C30_dry_levels",
    "C30_velocity_magnitude"
   ],
   "note": "Model data is a value in the model, so selections cannot change it; pandas boolean indexing copies."
  },
  {
   "property": "C31",
   "status": "partial",
   "theorems": [
    "C31_no_data_is_missing_in_the_geometry",
    "C31_velocity_no_data_refuted"
   ],
   "note": "Depths and levels equal to the no-data value are missing in the geometry. Velocity components equal to the no-data value are squared and used as data (witness proved)."
  },
  {
   "property": "C32",
   "status": "proved",
   "theorems": [
    "C32_every_point_is_assigned_to_a_nearest_cross_section",
    "C32_control_volumes_partition_the_mesh",
    "C32_strictly_nearest_decides",
    "C32_empty_input_is_refused",
    "C32_first_nearest_is_nearest",
    "C32_duplicate_ids_double_the_area",
    "C32_distance"
   ],
   "note": "Assumes that the k=1 search of sklearn returns a sample such that none is nearer (is_nearest; C32_first_nearest_is_nearest shows it can be met). Exact coordinates. Without cross-sections, faces or links sklearn raises ValueError. With duplicate ids the area counts double (witness)."
  },
  {
   "property": "C33",
   "status": "partial",
   "theorems": [
    "C33_regions_confine_control_volumes_partial",
    "classify_with_regions_spec",
    "C33_region_named_like_a_cross_section_refuted",
    "C33_region_without_links_refuted",
    "C33_long_ids_lose_their_links_refuted",
    "C33_run_keeps_to_the_regions_partial",
    "C33_label_texts"
   ],
   "note": "Holds if no region has the name of a cross-section, ids are not empty and at most 99 characters, and a region with faces and cross-sections also has links. Refuted otherwise: faces of a region without cross-sections go to a cross-section elsewhere that has the region's name as id; a region with a face and a cross-section but no link stops the run with ValueError; long ids lose their links. classify_with_regions_spec gives every class exactly. C33_run_keeps_to_the_regions_partial carries the confinement through the whole run, from map file to selection."
  },
  {
   "property": "C34",
   "status": "proved",
   "theorems": [
    "C34_optimal_threshold_split",
    "C34_main_channel_above_floodplain",
    "C34_first_value_missing_stops",
    "C34_run_classifies_by_the_last_time_step"
   ],
   "note": "Labels are 1 (main channel) and 2 (floodplain). Exact arithmetic, finite values; a missing first value raises ValueError, a later missing value keeps its old label (example)."
  },
  {
   "property": "C35",
   "status": "partial",
   "theorems": [
    "C35_label_of_a_location",
    "C35_label_of_a_node",
    "C35_locations_and_nodes_agree_partial",
    "C35_mesh_classification_is_total",
    "C35_overlap_refuted",
    "C35_face_across_a_border_refuted",
    "C35_missing_property_gives_none"
   ],
   "note": "Locations and nodes get the label of a polygon that contains them or the default, and agree where polygons do not overlap and shapely and MeshKernel agree. Refuted for faces and links: they take the label of their first node, also when their centre is in another polygon. A region polygon without the property region gives the label None."
  },
  {
   "property": "C36",
   "status": "partial",
   "theorems": [
    "C36_accepted_files",
    "C36_invalid_features_are_rejected_partial",
    "C36_section_labels_partial",
    "C36_kept_labels",
    "C36_unknown_sections_are_rejected",
    "C36_multi_part_geometry_refuted",
    "C36_capital_section_refuted",
    "C36_refused_sections"
   ],
   "note": "C36_accepted_files gives the exact condition for acceptance. Refuted: a multi-part geometry whose first part has one ring is accepted and cut to its first part, a one-part MultiPolygon with holes loses its holes, and labels such as Main are kept with their capitals."
  },
  {
   "property": "C37",
   "status": "partial",
   "theorems": [
    "C37_cached_labels_are_the_labels_partial",
    "C37_forced_calls_are_right",
    "C37_stale_metadata_recomputes",
    "C37_properties_have_their_own_cache",
    "C37_polygon_change_refuted",
    "C37_default_change_refuted",
    "C37_shared_cache_name",
    "C37_cache_text_round_trip",
    "C37_any_cache_file"
   ],
   "note": "Holds for every history in which calls with the same cache file and the same time and size of the 2D file would compute the same labels. Refuted: a changed polygon file or default label is not noticed."
  },
  {
   "property": "C38",
   "status": "partial",
   "theorems": [
    "C38_interruption_outside_the_write_partial",
    "C38_interruption_during_the_write_refuted",
    "C38_forced_call_repairs",
    "C38_cut_off_cache_is_noticed",
    "C38_cache_as_text",
    "C38_case_text"
   ],
   "note": "Refuted: after an interruption while the cache file is written every later run fails with JSONDecodeError until the file is deleted (the runner never forces). Interruptions before and after the write are harmless. The cache is also modelled as text: that json.load fails on every cut-off file is proved."
  },
  {
   "property": "C39",
   "status": "partial",
   "theorems": [
    "C39_definition_file_round_trip",
    "C39_lookup_by_id",
    "C39_missing_width_truncates_file",
    "C39_definition_file_of_any_names",
    "C39_blanks_around_the_name_refuted",
    "C39_third_section_width_refuted"
   ],
   "note": "Violated in two ways: the blanks around a name are lost, so that the cross-section is not found under its name, and the width of the third section is written but not read back. Everything else of every file comes back (C39_definition_file_of_any_names). float printing and reading are quantified oracles constrained by the float_codec record; decimal_codec shows the record is inhabited. Found: a cross-section without a width for a section leaves a truncated file."
  },
  {
   "property": "C40",
   "status": "partial",
   "theorems": [
    "C40_sobek_levels_increase",
    "C40_dflow_levels_ordered",
    "C40_dflow_levels_in_file",
    "C40_dflow_levels_collapse"
   ],
   "note": "The SOBEK half is proved as stated. D-Flow 1D: printed levels never decrease, and are strict when the gap is more than 0.0001; for a gap of exactly 0.0001 the claim is false (C40_dflow_levels_collapse: two levels half-way between printed values round to the same text)."
  },
  {
   "property": "C41",
   "status": "partial",
   "theorems": [
    "C41_file_rows",
    "C41_row_contents",
    "C41_flow_area_column_refuted",
    "C41_meta_row_width",
    "C41_header_and_section_widths"
   ],
   "note": "Row layout and level/width columns proved. The flow area column repeats the total area (refuted with a witness), and meta rows have 24 fields under a 20 field header."
  },
  {
   "property": "C42",
   "status": "partial",
   "theorems": [
    "C42_volume_table_round_trip",
    "C42_volumes_of_one",
    "C42_name_id_refuted",
    "C42_columns_have_their_names"
   ],
   "note": "Proved for every name other than id; for the name id the reader takes the header for a row and raises ValueError (C42_name_id_refuted)."
  },
  {
   "property": "C43",
   "status": "partial",
   "theorems": [
    "C43_file_structure",
    "C43_roughness_round_trip",
    "C43_capital_branch_refuted"
   ],
   "note": "Structure and round trip proved for branches with lower-case names; a cross-section on a branch with a capital in its name is never found by the reader (C43_capital_branch_refuted)."
  },
  {
   "property": "C44",
   "status": "partial",
   "theorems": [
    "C44_existing_output_is_left_alone",
    "C44_results_survive",
    "C44_log_file_refuted",
    "C44_map_output_refuted"
   ],
   "note": "Proved for the ten result files and every other file except fm2prof.log, which lies in the output directory and gets a line (C44_log_file_refuted). Map output (face_output.geojson etc.) is not looked at by the check and is replaced (C44_map_output_refuted)."
  },
  {
   "property": "C45",
   "status": "proved",
   "theorems": [
    "C45_output_is_confined",
    "C45_nothing_without_cross_sections",
    "C45_groups_are_independent",
    "C45_sobek_files_written",
    "C45_dimr_files_complete",
    "C45_run_is_confined",
    "C45_stale_roughness_survives",
    "C45_other_files_written"
   ],
   "note": "Files written outside _write_output (map output, bounding boxes, pickles, cache) are listed by C45_run_is_confined. Found: on overwrite a roughness file of a section that is no longer used keeps its old contents (C45_stale_roughness_survives)."
  },
  {
   "property": "C46",
   "status": "proved",
   "theorems": [
    "C46_interrupted_run_is_noticed",
    "C46_first_action",
    "C46_interrupted_output_is_noticed"
   ],
   "note": "An interrupted run is a prefix of its file actions; the next run changes nothing but its log file."
  },
  {
   "property": "C47",
   "status": "partial",
   "theorems": [
    "C47_generated_list",
    "C47_no_selection",
    "C47_selection",
    "C47_increasing_selection_keeps_file_order",
    "C47_file_order_refuted",
    "C47_wrong_selection_raises",
    "C47_failure_stops_the_run"
   ],
   "note": "Exactly the selected rows with ten or more faces are generated, in the order of CssSelection; that is file order for an increasing selection and without one, not in general (C47_file_order_refuted). An entry beyond the list or a failing row stops the run."
  },
  {
   "property": "C48",
   "status": "partial",
   "theorems": [
    "C48_decision_rule",
    "C48_time_steps_remain",
    "C48_failure_ends_the_run",
    "C48_negative_value_refuted"
   ],
   "note": "Decision rule proved for all values; a negative SkipMaps counts from the end and can skip nearly all steps without a warning (C48_negative_value_refuted)."
  },
  {
   "property": "C49",
   "status": "partial",
   "theorems": [
    "C49_log_of_a_project",
    "C49_headers_and_footers",
    "C49_file_footers_refuted",
    "C49_names_of_the_levels",
    "C49_new_formatter_refuses"
   ],
   "note": "Counts, headers and footers on the console proved for a process with one project; the log file gets no footer lines at all (C49_file_footers_refuted), because finish_log_task only tells the console formatter."
  },
  {
   "property": "C50",
   "status": "partial",
   "theorems": [
    "C50_report_refuted",
    "C50_messages_refuted",
    "C50_no_message_lost_partial"
   ],
   "note": "False: all projects share one logger. After a second project is created every report shows no warnings, and messages go to both log files. Proved fragment: no message is lost from the first log file."
  },
  {
   "property": "C51",
   "status": "proved",
   "theorems": [
    "C51_rules_conserve_length",
    "C51_lengths_after_a_rule",
    "C51_short_branches_conserve_or_raise",
    "C51_unknown_rule",
    "C51_single_point_refuted",
    "C51_rules_in_binary64"
   ],
   "note": "All rules for four or more points; for two or three points the rule conserves or raises. C51_single_point_refuted shows the one-point case outside the quantifier, where onlyedges duplicates the point. In binary64 the total is kept up to n + 1 units of 2^-52."
  },
  {
   "property": "C52",
   "status": "partial",
   "theorems": [
    "C52_exceptions_conserve_length",
    "C52_one_inner_exception",
    "C52_unknown_exception_raises",
    "C52_duplicate_exception_refuted",
    "C52_exceptions_of_the_rule_file",
    "C52_exceptions_in_binary64"
   ],
   "note": "Proved for distinct known exceptions that leave at least one point. False for an exception listed twice (witness proved: its neighbour is removed too); unknown names raise ValueError. In binary64 the total is kept up to 2m units of 2^-52 for m exceptions."
  },
  {
   "property": "C53",
   "status": "proved",
   "theorems": [
    "C53_lengths_partition_the_branch",
    "C53_lengths_in_binary64",
    "C53_branch_in_binary64",
    "C53_binary64_case"
   ],
   "note": "Exact rational arithmetic. In binary64 the lengths are not negative and add up to the branch length up to 3 units of 2^-52 (n + 4 + 2m units after a rule and m exceptions); the exact sum can differ (case)."
  },
  {
   "property": "C54",
   "status": "partial",
   "theorems": [
    "C54_window_of_a_table",
    "C54_rows_in_the_closed_interval",
    "C54_error_iff",
    "C54_data_outside_the_window_is_refused",
    "C54_first_table_fixes_the_window",
    "C54_same_limits_partial",
    "C54_data_limits_refuted",
    "C54_one_record_refuted",
    "C54_start_before_the_data_refuted"
   ],
   "note": "Full characterisation of one access and of a series of accesses. Refuted: the limits of the first accessed table are kept for the others (records lost or ValueError, depending on the order), one record or a start at the last record is refused, a start before the data is no error."
  },
  {
   "property": "C55",
   "status": "partial",
   "theorems": [
    "C55_route_stations",
    "C55_exactly_the_stations_partial",
    "C55_branch_named_twice_refuted",
    "C55_name_nan_refuted",
    "C55_lmw_without_kilometre_refuted"
   ],
   "note": "For any argsort that gives a sorting permutation with NaN last. Refuted: a branch that occurs twice gives its stations twice; a name with the text nan counts as having a river kilometre; LMW stations without one are kept."
  },
  {
   "property": "C56",
   "status": "partial",
   "theorems": [
    "C56_first_match",
    "C56_same_nine_characters_partial",
    "C56_data_of_the_matched_station",
    "C56_short_name_refuted",
    "C56_levels_and_discharges"
   ],
   "note": "Proved for 1D names of at least nine characters, up to the imported data columns. Shorter names are matched with stations that only start with them (refuted)."
  },
  {
   "property": "C57",
   "status": "partial",
   "theorems": [
    "C57_bias_and_mean_absolute_error",
    "C57_zero_error_iff_agreement_partial",
    "C57_spread_of_the_errors",
    "C57_no_common_time_refuted",
    "C57_bias_and_error_in_binary64",
    "C57_binary64_case"
   ],
   "note": "For series without infinities and with a common time; without one the statistics are missing instead of zero (refuted). With rounding the three relations hold exactly as well, for every order of summation (C57_bias_and_error_in_binary64), where zero errors are told from non-zero errors above 2^-1000."
  },
  {
   "property": "C58",
   "status": "proved",
   "theorems": [
    "C58_bin_of_a_sample",
    "C58_at_most_one_bin",
    "C58_rating_curve",
    "C58_edges_increase",
    "C58_range_of_the_curve"
   ],
   "note": "The label of a bin is its upper edge; the first bin has no lower edge; discharges of 17800 and more are in no bin."
  },
  {
   "property": "C59",
   "status": "proved",
   "theorems": [
    "C59_mask_files_round_trip",
    "C59_created_points",
    "C59_rejected_before_writing",
    "C59_reading"
   ],
   "note": "Writing and reading with the geojson coordinate rounding as an idempotent function; the names, extensions and empty inputs that are refused leave the directory unchanged."
  },
  {
   "property": "C60",
   "status": "partial",
   "theorems": [
    "C60_project_is_found_again_iff",
    "C60_names_without_dots_partial",
    "C60_created_project_is_loaded",
    "C60_dotted_name_refuted",
    "C60_other_names_refuted"
   ],
   "note": "The created file is the one looked for exactly if the last component of the name has no suffix; then every default parameter is read back. For v1.2, case.ini or a trailing slash another file is looked for and the default configuration is silently used if it does not exist (refuted)."
  },
  {
   "property": "C61",
   "status": "proved",
   "theorems": [
    "C61_rows_describe_retained_time_steps",
    "C61_rows_when_the_centre_falls_dry",
    "C61_rows_for_every_method"
   ],
   "note": " C61_rows_for_every_method covers every conveyance method, with the mask of C10 in the place of the rule; the other two theorems spell out the rule of the default method."
  },
  {
   "property": "C62",
   "status": "partial",
   "theorems": [
    "C62_flow_area_within_wet_area_partial",
    "C62_flow_area_within_wet_area_refuted",
    "C62_areas_in_binary64"
   ],
   "note": "false of the code when a resting lake has a velocity above the threshold; proved when resting lakes have zero velocity If the flow cells are wet cells the relation holds exactly with rounding too (C62_areas_in_binary64)."
  },
  {
   "property": "C63",
   "status": "partial",
   "theorems": [
    "C63_volume_error_measures_mismatch",
    "C63_total_volume_fit_is_optimal_partial",
    "C63_flow_volume_fit_refuted",
    "C63_joint_fit_is_optimal_partial"
   ],
   "note": "The flow stage of the fit compares with the 2D total volume, so the flow part of the property is false of the code (refuted with a witness); the total volume part is proved for an exact optimiser that returns a non-negative volume."
  },
  {
   "property": "C64",
   "status": "proved",
   "theorems": [
    "C64_centre_levels_have_no_gaps",
    "C64_nothing_known_nothing_filled"
   ],
   "note": "water depths of the cell are numbers; exact arithmetic"
  },
  {
   "property": "C65",
   "status": "partial",
   "theorems": [
    "C65_ends_move_inward",
    "C65_two_points_refuted",
    "C65_short_branch_refuted"
   ],
   "note": "Proved for three or more points. False for two points, where the last point is interpolated from the moved first point. numpy's interval search is an oracle with a bracketing property."
  },
  {
   "property": "C66",
   "status": "partial",
   "theorems": [
    "C66_branches_are_read_independently",
    "C66_branch_block",
    "C66_incomplete_block_refuted"
   ],
   "note": "Proved for blocks that hold all four grid point lines. A block that lacks some of them silently uses the values of the block before it (witness proved)."
  },
  {
   "property": "C67",
   "status": "partial",
   "theorems": [
    "C67_rule_file_is_read_completely",
    "C67_every_rule_file",
    "C67_branch_named_twice_refuted",
    "C67_blank_line_refuted"
   ],
   "note": "Every file: it is refused (IndexError) just when a line with more than one character has no comma, and else a branch has the rule and the exceptions, without blanks, of the last line that names it. Refuted for a branch that is named twice, of which the first line is lost without a message, and for a line of blanks, which is not passed over but refused."
  },
  {
   "property": "C68",
   "status": "proved",
   "theorems": [
    "C68_overlaps_are_reported",
    "C68_overlap_does_not_reject"
   ],
   "note": "The intersection test of shapely is an arbitrary relation."
  },
  {
   "property": "C69",
   "status": "partial",
   "theorems": [
    "C69_rows_along_a_route",
    "C69_one_row_per_station_partial",
    "C69_equal_stations_refuted",
    "C69_equal_rows"
   ],
   "note": "Stations with equal values are dropped, whatever their river kilometre (refuted); one row per station if no two have the same values."
  },
  {
   "property": "C70",
   "status": "partial",
   "theorems": [
    "C70_ordered_maxima",
    "C70_final_values_below_maxima",
    "C70_missing_final_value_refuted",
    "C70_statistics_of_a_station",
    "C70_max3_in_binary64_refuted"
   ],
   "note": "Order of the maxima proved; the comparison with the last values needs that none of these is missing (refuted otherwise). With rounding the order does not hold exactly (C70_max3_in_binary64_refuted: a constant level of 51.2 has max3 51.20000000000001)."
  },
  {
   "property": "C71",
   "status": "partial",
   "theorems": [
    "C71_moments_partial",
    "C71_record_of_a_moment",
    "C71_short_period_refuted"
   ],
   "note": "From six days on there are 6 to 11 moments within the period; a shorter period raises ValueError (refuted)."
  },
  {
   "property": "C72",
   "status": "partial",
   "theorems": [
    "C72_labels_five_kilometres_apart",
    "C72_every_station_near_a_label",
    "C72_missing_location_refuted"
   ],
   "note": "For numeric locations from -9994 on; a station without a number switches the spacing off (refuted)."
  },
  {
   "property": "C73",
   "status": "proved",
   "theorems": [
    "C73_discharge_steps",
    "C73_step_reaches_its_target",
    "C73_no_levels"
   ],
   "note": "Levels without infinities; a station without any level raises ValueError."
  },
  {
   "property": "C74",
   "status": "proved",
   "theorems": [
    "C74_search_starts_at_largest_shortage"
   ],
   "note": "Real arithmetic. Stated as what a search that does not move returns. Method 1 starts the flow volume from the mismatch of the total volume and the total volume from that of the flow volume, as the theorem says."
  },
  {
   "property": "C75",
   "status": "proved",
   "theorems": [
    "C75_meaningless_line_is_refused",
    "C75_repeated_section_is_refused",
    "C75_option_outside_a_section_is_refused",
    "C75_repeated_option_is_refused",
    "C75_no_project_from_a_refused_file"
   ],
   "note": "For the modelled subset of configparser; lines that start in the first column; a repeated option has no section header between its two lines."
  },
  {
   "property": "C76",
   "status": "proved",
   "theorems": [
    "C76_cross_sections_get_the_data_of_the_file",
    "C76_missing_variables_are_refused",
    "C76_missing_edge_coordinates_are_refused",
    "C76_labels_before_the_polygons"
   ],
   "note": "Reading is modelled from the variables of the file on (xarray is trusted to return them). Cached labels of a length other than that of the mesh are not checked by the code for links; the hypothesis fits excludes them. Region labels are compared as text."
  },
  {
   "property": "C77",
   "status": "proved",
   "theorems": [
    "C77_control_volumes_cover_the_mesh_once"
   ],
   "note": "Through _set_fm_model_data and get_selection; nearest neighbour search as in C32."
  },
  {
   "property": "C78",
   "status": "proved",
   "theorems": [
    "C78_older_files_give_the_same_data",
    "C78_chezy_of_the_links",
    "C78_internal_edges"
   ],
   "note": "Dimensions of the variables as in the file format (dims)."
  },
  {
   "property": "C79",
   "status": "partial",
   "theorems": [
    "C79_roughness_table",
    "C79_every_entry_once",
    "C79_unknown_section_is_refused",
    "C79_comma_in_the_branch_refuted"
   ],
   "note": "Violated for a branch name with a comma, which shifts the columns of its rows; proved for branch names without comma or newline. str(float) gives a number text (oracle)."
  },
  {
   "property": "C80",
   "status": "partial",
   "theorems": [
    "C80_generated_cross_section_is_valid",
    "C80_from_the_map_file_to_the_cross_section",
    "C80_small_control_volume_is_left_out",
    "C80_dry_control_volume_refuted",
    "C80_area_weighing_refuted",
    "C80_dry_centre_refuted",
    "C80_dike_of_the_cross_section",
    "C80_dry_centre_few_points_refuted"
   ],
   "note": "Proved for control volumes in which a face of positive area holds moving water at a retained time step; refuted for a control volume that stays dry or holds a lake at rest (the program stops with IndexError) and for the area weighing of the friction (AttributeError). Exact arithmetic; the search for the summer dike is an oracle with a finite crest level. With a centre face that is always dry a cross-section is generated whose levels are all NaN (C80_dry_centre_refuted). With six points in a profile such a cross-section stops the run with IndexError."
  },
  {
   "property": "C81",
   "status": "partial",
   "theorems": [
    "C81_points_of_a_cross_section",
    "C81_files_hold_all_points",
    "C80_from_the_map_file_to_the_cross_section",
    "C81_lakes_are_never_marked_refuted"
   ],
   "note": "Everything but the lake flag is proved; is_lake is False for every face, also for the lakes that are detected (refuted)."
  },
  {
   "property": "C82",
   "status": "partial",
   "theorems": [
    "C82_figure_shows_the_exported_data",
    "C82_crest_level",
    "C82_flow_volume_refuted"
   ],
   "note": "Everything is shown as exported except the area labelled '1D Flow Volume (incl. SD)', which for every cross-section shows the flow volume without the summer dike. Assumes exported numbers that stay finite when printed with four decimals; colours and axis titles are not modelled."
  },
  {
   "property": "C83",
   "status": "partial",
   "theorems": [
    "C83_a_figure_for_every_cross_section",
    "C83_old_figures_are_kept_refuted",
    "C83_one_figure",
    "C83_plot_cross_sections_refuted",
    "C83_no_logger_refuted"
   ],
   "note": "Every cross-section without a figure gets one and failures are isolated and reported. Refuted: figures of an earlier run are kept whatever the new results are, the method that draws all figures raises TypeError on the first one, and a visualiser without a logger raises AttributeError."
  },
  {
   "property": "C84",
   "status": "partial",
   "theorems": [
    "C84_one_branch_partial",
    "C84_begins_with",
    "C84_running_chainage_partial",
    "C84_two_branches_refuted",
    "C84_listed_twice_refuted",
    "C84_roughness_along_the_branch",
    "C84_no_cross_sections"
   ],
   "note": "Holds when all cross-sections lie on one branch. As soon as there are two branches every request raises ValueError; behind that test the running chainage over sub-branches is as stated, but a sub-branch whose name begins with that of another is listed under both."
  },
  {
   "property": "C85",
   "status": "partial",
   "theorems": [
    "C85_envelopes_partial",
    "C85_generated_faces_are_rounded",
    "C85_all_or_nothing_refuted",
    "C85_one_line_refuted",
    "C85_rings_are_open_refuted"
   ],
   "note": "If the hull routine succeeds for every cross-section there is one enclosing polygon each, with the right name. Refuted: one cross-section without a hull (for instance all faces on one line) loses the file for all, because only IndexError is caught; no ring that is written is closed. The hull routine is an oracle with a stated specification."
  },
  {
   "property": "C86",
   "status": "partial",
   "theorems": [
    "C86_definition_file_is_valid",
    "C86_binary64_is_precise",
    "C86_equal_levels_refuted"
   ],
   "note": "Everything but strictness is proved for every generated list; levels and widths are strictly increasing in the file where they are more than 0.0002 apart. Refuted: two levels of a generated cross-section 0.00001 apart are equal in the file. That the nearest binary64 number is precise enough is proved with Flocq."
  },
  {
   "property": "C87",
   "status": "proved",
   "theorems": [
    "C87_locations_file",
    "C87_location_of_a_css",
    "C87_locations_refer_to_definitions",
    "C87_geometry_table",
    "C87_roughness_table_refuted",
    "C87_case_locations",
    "C87_case_table"
   ],
   "note": "Readers of the ini format and of the table are part of the specification. Also shown: the plain roughness table that is written next to the geometry table gets no further than its header, because the attribute that it reads does not exist."
  },
  {
   "property": "C88",
   "status": "partial",
   "theorems": [
    "C88_loaded_input_files",
    "C88_printed_input_files",
    "C88_same_input_files_partial",
    "C88_same_input_files_refuted",
    "C88_case",
    "C88_places",
    "C88_asked_files_exist"
   ],
   "note": "Loading is proved as stated. Printing and loading again gives the same files if the configuration file is named by an absolute path or by its bare name; refuted for a relative path with a directory, which is put in front of the printed paths once more, so that the files are not found and the defaults are used."
  },
  {
   "property": "C89",
   "status": "partial",
   "theorems": [
    "C89_roughness_of_a_run",
    "C89_levels_of_the_file",
    "C89_case",
    "C89_highest_level_in_binary64_refuted",
    "C95_falling_flood_refuted"
   ],
   "note": "Composition of the interpolation over the run (C20) and the roughness file (C43). No two cross-sections share branch and chainage, branch names are in lower case and names end in the chainage, as in C43. The highest level itself is never in the file, and a section with a single level in the run gets an empty table (C89_levels_of_the_file). Proved in exact arithmetic. With binary64 rounding the last level can lie above the highest one: levels from 1.0 to 1.3 give a last level of 1.3000000000000003 (C89_highest_level_in_binary64_refuted); by how much is bounded in C20_levels_in_binary64. Between its levels the table is linear only if they increase; for a falling flood see C95_falling_flood_refuted."
  },
  {
   "property": "C90",
   "status": "partial",
   "theorems": [
    "C90_read_parameters_have_their_type",
    "C90_defaults",
    "C90_unread_parameters_refuted"
   ],
   "note": "Refuted in part: CaseName, MinimumDepthThreshold and BedlevelCriterium are in the template, with a description of their effect, but nothing in the program reads them (C90_unread_parameters_refuted: setting them changes nothing the program looks at, and all others are read). The rest of the property is proved: known names, types after loading any file, defaults under any capitalisation."
  },
  {
   "property": "C91",
   "status": "partial",
   "theorems": [
    "C91_file_is_read_as_written",
    "C91_parameters_of_the_file",
    "C91_case",
    "C91_indented_line_refuted",
    "C91_percent_in_remark_refuted"
   ],
   "note": "Proved for lines that do not start with a blank and remarks without a per cent sign. A blank at the start of an option line makes it part of the value before, so that both parameters keep their defaults without a message (C91_indented_line_refuted). A per cent sign in a remark makes the file unreadable (C91_percent_in_remark_refuted). References of the form %(name)s are outside the model."
  },
  {
   "property": "C92",
   "status": "proved",
   "theorems": [
    "C92_lengths",
    "C92_empty_lists",
    "C92_numbers",
    "C92_names_and_positions",
    "C92_configuration",
    "C92_region_file",
    "C92_json_values",
    "C92_first_width_that_is_not_zero",
    "C92_output_directory"
   ],
   "note": "Kinds of errors of numpy, pandas, scikit-learn and MeshKernel are assumptions of the model."
  },
  {
   "property": "C93",
   "status": "proved",
   "theorems": [
    "C93_reader",
    "C93_writer",
    "C93_no_document_is_refused",
    "C93_cut_off_file_is_refused",
    "C93_file_is_read_as_written",
    "C93_accepted_features",
    "C93_accepted_files",
    "C93_case",
    "C93_hex_digits"
   ],
   "note": "json.load is modelled character by character and proved to read exactly the JSON grammar of L_Json.v. C93_accepted_files says for any document which features are accepted. Characters above 255 only as escapes; the decoding of the bytes of the file, RecursionError and the limit on digits of int() are not modelled."
  },
  {
   "property": "C94",
   "status": "proved",
   "theorems": [
    "C94_sobek_file_is_valid",
    "C94_case"
   ],
   "note": "Composition of the generation (C80), the level shift and the file (C41). The reader of floats is a correctly rounding codec, as in C41; levels up to 7e9 in size (usual). Levels are equal up to 2e-6, the decimals that are printed."
  },
  {
   "property": "C95",
   "status": "partial",
   "theorems": [
    "C95_finite_tables",
    "C95_rising_water",
    "C95_last_time_step_rules",
    "C95_generated_run",
    "C95_unknown_levels",
    "C95_falling_flood_refuted",
    "C95_one_dry_centre_spoils_all_refuted",
    "C95_unknown_friction"
   ],
   "note": "Proved for water that rises at every time step (C95_rising_water) and for runs in which all centre levels are known (C95_generated_run: then the exporter sees the tables of C20 and C89). Refuted for a flood that falls at the end: np.interp needs increasing levels, and all levels above that of the last time step get the friction of the last time step (C95_falling_flood_refuted, rule in C95_last_time_step_rules). Refuted for a run with one cross-section whose centre face is always dry: its levels are NaN, np.arange raises, and the section and all later ones keep their tables in all cross-sections (C95_unknown_levels); the file then gives other cross-sections of the branch the levels of the first one (C95_one_dry_centre_spoils_all_refuted). The helper has no logger, so that nothing is reported. Exact arithmetic."
  },
  {
   "property": "C96",
   "status": "partial",
   "theorems": [
    "C96_clean_log_means_complete",
    "C96_errors_are_real",
    "C96_false_means_nothing_done",
    "C96_case",
    "C96_true_after_errors_refuted",
    "C96_missing_directory_refuted"
   ],
   "note": "Proved for every run: True without an error message means complete output (C96_clean_log_means_complete, if the output directory is still there), an error message means that something is missing (C96_errors_are_real), False means untouched output and a message (C96_false_means_nothing_done). Refuted: the result is True although errors occurred and nothing was written (C96_true_after_errors_refuted), and nothing is said if the output directory has disappeared (C96_missing_directory_refuted). Failures inside the interpolation of friction, which are not logged, are in C95."
  },
  {
   "property": "C97",
   "status": "partial",
   "theorems": [
    "C97_one_row_per_level",
    "C97_file_is_read_back",
    "C97_columns_of_the_cross_section",
    "C97_rows_hold_the_time_steps",
    "C97_volumes_integrate_the_unchecked_widths",
    "C97_corrected_volumes_hold_the_dike",
    "C97_volumes_of_the_rows_refuted",
    "C97_case"
   ],
   "note": "Proved: eleven columns of equal length for whatever data, so the file is written to the end and read back; levels and widths are those of the generated cross-section; on finite data the 2D columns are those of the record time steps, with missing volumes in the ten rows below; the corrected volumes add exactly the released share. Violated (C97_volumes_of_the_rows_refuted, for every control volume with finite data and a positive minimum width): the volumes are computed before check_requirements repairs levels and widths, the file shows them next to the repaired ones; rows 9 and 10 always have different levels, positive widths and equal volumes. Strongest true fragment: C97_volumes_integrate_the_unchecked_widths."
  },
  {
   "property": "C98",
   "status": "partial",
   "theorems": [
    "C98_the_order_of_the_faces_does_not_matter",
    "C98_case",
    "C98_mean_method_refuted"
   ],
   "note": "Proved for the whole of _generate_cross_section (geometry, search for the dike, roughness, check, sections, floodplain base, reduction of points, output points) and the conveyance detection methods 1 and up: two listings of the same faces give the same cross-section or the same exception, for whatever data, missing values included, and for every search for the dike that treats equal geometries equally. Violated for the legacy method 0 (C98_mean_method_refuted): it smooths the velocity with rolling(10) down the rows of a frame, which are the faces in the order of the file (pandas 2 as in pyproject.toml, M_Rolling.v), so that listing the same twelve faces in another order changes the flow width in the top row from 6.001 to 10 m. Strongest true fragment: C98_the_order_of_the_faces_does_not_matter."
  },
  {
   "property": "C99",
   "status": "partial",
   "theorems": [
    "C99_the_datum_does_not_matter_partial",
    "C99_case",
    "C99_floodplain_base_refuted",
    "C99_the_search_sees_the_same_errors",
    "C99_the_dike_follows_the_datum",
    "C99_dike_case"
   ],
   "note": "Proved for the whole of _generate_cross_section with conveyance detection methods 1 and up, finite areas, length and minimum width: raising all bed and water levels by h raises all levels of the cross-section and of its roughness tables by h and changes no width, area or roughness; crest and floodplain base follow if the search for the dike is on, succeeds, and follows the datum itself. Violated (C99_floodplain_base_refuted): without the search (SDCorrection off, or a failed search) the crest level stays 0 and the floodplain base level is kept below 0 minus the tolerance, so that it is the same for a river twenty metres higher. Strongest true fragment: C99_the_datum_does_not_matter_partial. That scipy's search follows the datum is a hypothesis of the theorem (follows); its start simplex is scaled with the size of the crest level. In real arithmetic the search sees the same errors at raised levels whatever the optimiser, and the dike follows for every optimiser that follows the datum itself (T_SameDike.v)."
  }
 ]
}