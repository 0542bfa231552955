{"id": "C01", "title": "Generated cross-section tables are valid 1D input", "statement": "After the requirement check that precedes export, the level column, the total-width column and the flow-width column of a cross-section are each strictly increasing, every width is at least the configured minimum width, flow width never exceeds total width, and the number of rows is unchanged.", "quantifier": "for every cross-section table of any length with numeric (non-NaN) entries and every minimum width, whatever order, sign or duplication the entries have", "why_tests_cant": "The table length and contents come from the 2D model output; tests look at one recorded cross-section. Strictness must survive arbitrary runs of equal or falling values where each repair depends on the previous repaired value.", "anchors": ["fm2prof/cross_section.py: CrossSection.check_requirements, _check_increasing_order, _check_remove_zero_widths, _check_total_width_greater_than_flow_width"]}
{"id": "C02", "title": "The requirement check changes a table as little as possible", "statement": "The repair of a column never lowers a value, keeps the first value, leaves an already strictly increasing column untouched (so repeating the repair changes nothing), and lifts row i at most 0.001*i above the largest original value among rows 0..i.", "quantifier": "for every numeric column of any length", "why_tests_cant": "Cumulative drift of the 0.001 steps is unbounded in the number of rows; a test checks one array.", "anchors": ["fm2prof/cross_section.py: CrossSection._check_increasing_order"]}
{"id": "C03", "title": "Water levels used for a cross-section are exactly the record highs", "statement": "When the water level at the cross-section is not monotone in time, the time steps used to build the geometry are exactly those at which the level is strictly higher than at every earlier retained or dropped time step; the first is always used, and the selected levels are strictly increasing.", "quantifier": "for every water level series of any length without missing values", "why_tests_cant": "The selection at step i depends on the whole history before i; tests use monotone hydrographs.", "anchors": ["fm2prof/cross_section.py: CrossSection._check_monotonicity, build_geometry"]}
{"id": "C04", "title": "Flow width above the initial water level is the largest non-decreasing lower envelope", "statement": "Above the initial water level the flow width at a level is the minimum of the raw flow widths at that and all higher levels: it is non-decreasing with level, never larger than the raw flow width, equal at the top row, and no other non-decreasing sequence below the raw widths is larger anywhere.", "quantifier": "for every list of flow areas and every non-zero cross-section length", "why_tests_cant": "The backward sweep is a whole-array recurrence; envelope optimality is a statement about all competitor sequences.", "anchors": ["fm2prof/cross_section.py: CrossSection._compute_css_above_z0"]}
{"id": "C05", "title": "Extension of the profile below the initial water level", "statement": "Below the initial water level ten rows are added in front of every column (levels, widths, wet areas, flow areas, 2D volumes), the levels run from the lowest bed level of the cross-section centre up to the initial water level without decreasing, total widths do not decrease with level, and flow width is between zero and total width in the added rows.", "quantifier": "for every set of cells with non-negative area, any bed levels, water levels and depths, both settings of storage extrapolation, any positive length and any non-negative centre depth", "why_tests_cant": "Quantifies over all meshes; the monotonicity is a set inclusion over arbitrarily many cells.", "anchors": ["fm2prof/cross_section.py: CrossSection._extend_css_below_z0"]}
{"id": "C06", "title": "All profile columns stay aligned", "statement": "After building the geometry every column that is exported row by row (level, widths, 1D volumes, corrected volumes, 2D volumes, wet area, flow area) has the same number of rows, so the volume table can be written without running out of data and row k of each column refers to the same level.", "quantifier": "for every 2D data selection with at least one time step, any mask of retained time steps", "why_tests_cant": "Length bookkeeping across eight arrays that are masked and prepended at different places; tests only see lengths for one data set.", "anchors": ["fm2prof/cross_section.py: CrossSection.build_geometry", "fm2prof/export.py: Export1DModelData.export_volumes"]}
{"id": "C07", "title": "1D volumes are cumulative and consistent", "statement": "The 1D total volume starts at 0, equals the trapezoidal integral of total width over level times the length, never decreases with level, and the flow volume never exceeds the total volume when flow width never exceeds total width.", "quantifier": "for every profile with non-decreasing levels, non-negative widths and non-negative length, of any number of rows", "why_tests_cant": "Inductive statement over the number of rows.", "anchors": ["fm2prof/cross_section.py: CrossSection.build_geometry"]}
{"id": "C08", "title": "2D volumes are non-negative and additive over cells", "statement": "The 2D total volume of a cross-section at a time step is the sum over its cells of area times effective depth, and adding wet cells never reduces it; volumes are never negative.", "quantifier": "for every set of cells and every time step", "why_tests_cant": "The effective depth is the result of lake and deep-pool corrections whose sign depends on the whole time series of a cell.", "anchors": ["fm2prof/cross_section.py: CrossSection.build_geometry"]}
{"id": "C09", "title": "Lake cells: detection and activation over time", "statement": "A cell is a lake iff at the lake time step it is wet and its depth differs at most 1 cm from its initial depth. A lake cell is left out at a time step iff its depth has risen by at most 1 mm in every step so far; once activated it is never left out again. Non-lake cells are left out only when dry. The recorded depth correction is minus the initial depth for lakes and zero otherwise.", "quantifier": "for every depth series of every cell, any number of time steps, any lake time step inside the series", "why_tests_cant": "History property over all time steps; tests use one mesh.", "anchors": ["fm2prof/cross_section.py: CrossSection._identify_lakes"]}
{"id": "C10", "title": "Separation of conveyance and storage", "statement": "With the default method a cell conveys at a time step iff it is wet and its velocity exceeds the absolute threshold or the relative threshold times the mean of the three highest velocities of that time step; no dry cell conveys, raising either threshold never adds conveying cells, and if the relative threshold is below 1 a fastest wet moving cell always conveys. Any unknown method number gives the same result as the default method.", "quantifier": "for every set of cells, velocities, depths, thresholds and time steps", "why_tests_cant": "Quantifies over all velocity fields including ties and fewer than three cells.", "anchors": ["fm2prof/cross_section.py: CrossSection._distinguish_conveyance_from_storage"]}
{"id": "C11", "title": "Simplification keeps a valid sub-profile of at most n points", "statement": "Simplifying to n points (n >= 2, profile longer than n) returns a profile whose rows are a subsequence of the original rows, the same rows for level, total width and flow width, with at most n rows and containing the first and the last row. Shorter profiles are returned unchanged. Hence all orderings and bounds of the requirement check still hold.", "quantifier": "for every profile of any length and every n >= 2", "why_tests_cant": "The set of kept points is produced by an iterative elimination on mutable arrays with index bookkeeping; unbounded length.", "anchors": ["fm2prof/cross_section.py: CrossSection.reduce_points", "fm2prof/lib/polysimplify.py: VWSimplifier"]}
{"id": "C12", "title": "The simplifier performs the Visvalingam-Whyatt elimination", "statement": "The simplifier terminates without error on every polyline of at least one point, and the significance recorded for each interior vertex is the effective triangle area at the moment that vertex was eliminated in a run that always eliminates a vertex of least effective area (the larger of its current triangle area and the last eliminated area) among the remaining interior vertices. End points are never eliminated.", "quantifier": "for every polyline of any length with finite coordinates", "why_tests_cant": "Refinement of an optimised in-place algorithm (shifted arrays, skipped searches) against the textbook algorithm over all inputs.", "anchors": ["fm2prof/lib/polysimplify.py: VWSimplifier.build_thresholds, remove, triangle_area"]}
{"id": "C13", "title": "Simplified profiles are nested", "statement": "For the same profile, every point kept when simplifying to n points is also kept when simplifying to m >= n points, and the kept set is the set of vertices whose significance exceeds a threshold.", "quantifier": "for every polyline and all n <= m", "why_tests_cant": "Relates all pairs of simplification levels.", "anchors": ["fm2prof/lib/polysimplify.py: VWSimplifier.from_number, from_number_index, from_threshold, from_ratio"]}
{"id": "C14", "title": "Summer dike correction never yields negative or inconsistent extra volume", "statement": "Whatever the optimiser returns, the extra total area is non-negative and the extra flow area lies between zero and the extra total area, for every optimisation method; an unknown method number behaves as method 0. The corrected 1D volumes are never below the uncorrected ones and do not decrease with level.", "quantifier": "for every optimiser outcome (any numbers), every method number, every profile", "why_tests_cant": "The optimiser is a black box; tests only see the values it happens to return for one case.", "anchors": ["fm2prof/cross_section.py: CrossSection._optimize_sd_storage, calculate_correction"]}
{"id": "C15", "title": "The summer dike transition is a proper smooth step", "statement": "For a positive transition height the share of extra volume that is active at a water level is strictly between 0 and 1, strictly increasing with level, one half at crest level plus half the transition height, and symmetric around that level; it is below 0.004 at the crest level and above 0.996 at crest level plus transition height.", "quantifier": "for every real water level, crest level and positive transition height", "why_tests_cant": "Statement over the reals.", "anchors": ["fm2prof/cross_section.py: CrossSection._get_extra_total_area"]}
{"id": "C16", "title": "Section widths add up", "statement": "After the section checks the widths of main channel and floodplains add up to at least the largest flow width (and to the unchanged sum if they already did); the main channel is at least the narrowest flow width plus tolerance; moving width to the main channel takes it from floodplain 1 so the sum is preserved; no section width becomes negative.", "quantifier": "for every assignment of section widths and every flow-width column", "why_tests_cant": "Involves floor to centimetres and sign cases; one recorded case cannot cover them.", "anchors": ["fm2prof/cross_section.py: CrossSection._compute_section_widths, _check_section_widths_greater_than_flow_width, _check_section_widths_greater_than_minimum_width"]}
{"id": "C17", "title": "Section widths follow the section classification of the cells", "statement": "The width of a section is the total area of the cells classified in that section divided by the length; cells of the three sections together give the total area of the classified cells.", "quantifier": "for every classification of cells, given by polygons or by roughness variance", "why_tests_cant": "Depends on how two different classifiers label cells; tests with one classifier hide the other.", "anchors": ["fm2prof/cross_section.py: CrossSection._compute_section_widths", "fm2prof/fm2prof_runner.py: Fm2ProfRunner._classify_roughness_sections_by_variance", "fm2prof/polygon_file.py: SectionPolygon"]}
{"id": "C18", "title": "Floodplain base level stays below the dike crest", "statement": "The floodplain base level is never higher than the crest level minus the configured tolerance; if the mean bed level of the floodplain cells is lower than that, the mean is used.", "quantifier": "for every set of cells, bed levels and tolerance", "why_tests_cant": "All inputs including absence of floodplain cells.", "anchors": ["fm2prof/cross_section.py: CrossSection._compute_floodplain_base"]}
{"id": "C19", "title": "Friction averages ignore missing values and stay within range", "statement": "The friction of a section at a time step is the mean of the non-zero Chezy values of that section; it lies between the smallest and largest of them and is 0 iff there are none. The area-weighted variant gives a weighted mean of the same non-zero values.", "quantifier": "for every set of links, weights and time steps", "why_tests_cant": "Missing values appear in arbitrary combinations.", "anchors": ["fm2prof/cross_section.py: CrossSection._friction_weighing_simple, _friction_weighing_area, _build_roughness_tables"]}
{"id": "C20", "title": "Friction tables are uniform over the model after finalisation", "statement": "After interpolation all cross-sections that have a given section share the same level column for it, the level step is 0.1 m, value and level columns have equal length, each value lies between the smallest and largest original value of that table, and the operation never raises.", "quantifier": "for every list of cross-sections and friction tables with increasing levels", "why_tests_cant": "Unbounded number of cross-sections, sections and levels.", "anchors": ["fm2prof/cross_section.py: CrossSectionHelpers.interpolate_friction_across_cross_sections", "fm2prof/common.py: FrictionTable"]}
{"id": "C21", "title": "Reading back a parameter gives the last value set", "statement": "After any sequence of set and get calls, the value of a configuration parameter is the last value set under any spelling of its name that differs only in case, or its default; all other parameters are unaffected; reading never changes anything.", "quantifier": "for every sequence of calls with any keys and values", "why_tests_cant": "Unbounded call histories.", "anchors": ["fm2prof/ini_file.py: IniFile.set_parameter, get_parameter, _set_config_value", "fm2prof/fm2prof_runner.py: Project.set_parameter, get_parameter"]}
{"id": "C22", "title": "Unknown configuration names are harmless", "statement": "Setting an unknown parameter changes nothing; reading an unknown parameter yields None without raising; unknown sections and keys in a configuration file are ignored; a parameter that is absent from the file or whose text cannot be converted keeps its default.", "quantifier": "for every key, value and file content", "why_tests_cant": "All possible file contents.", "anchors": ["fm2prof/ini_file.py: IniFile._extract_parameters, set_parameter, get_parameter, _get_key_from_template"]}
{"id": "C23", "title": "A printed configuration loads back to the same parameters", "statement": "Loading the text produced by printing a configuration reproduces every parameter value, for values that contain no comment sign, line break or surrounding blanks.", "quantifier": "for every configuration with such values (text, integers, booleans, integer lists)", "why_tests_cant": "Codec round trip over all values; tests only print the default configuration.", "anchors": ["fm2prof/ini_file.py: IniFile.print_configuration, load_configuration_from_file, _get_inifile_params, _extract_parameters, ImportBoolType, ImportListType"]}
{"id": "C24", "title": "Loading a configuration file twice is the same as loading it once", "statement": "Loading a configuration file (which reads the file twice internally) gives the same configuration as a single reading, and loading the same file again changes nothing.", "quantifier": "for every configuration state and file content", "why_tests_cant": "Idempotence over all states.", "anchors": ["fm2prof/ini_file.py: IniFile.load_configuration_from_file, _read_inifile"]}
{"id": "C25", "title": "Broken configuration files are reported as configuration errors", "statement": "A configuration file without an input or output section is reported as a configuration file error rather than as an internal error.", "quantifier": "for every file content that lacks one of the two sections", "why_tests_cant": "All file contents.", "anchors": ["fm2prof/ini_file.py: IniFile._extract_input_files, _extract_output_dir"]}
{"id": "C26", "title": "The output directory is created where output is written", "statement": "After setting the output directory, the directory that exists on disk is the directory returned by the getter and used for output.", "quantifier": "for every configuration file location, working directory and output directory value", "why_tests_cant": "Depends on the relation between two directories that coincide in tests.", "anchors": ["fm2prof/ini_file.py: IniFile.set_output_directory, get_output_directory, _get_valid_output_dir"]}
{"id": "C27", "title": "Cross-section location file is read completely and in order", "statement": "Every data line of the location file yields one entry, in file order, with its coordinates, id, branch, length and chainage; only a non-numeric first line is skipped; a later non-numeric line is an error and never silently dropped.", "quantifier": "for every file of any number of lines in the six-column or five-column layout", "why_tests_cant": "Unbounded files, mixed layouts.", "anchors": ["fm2prof/data_import.py: ImportInputFiles.css_file"]}
{"id": "C28", "title": "Location files written by the generator can be read back", "statement": "Reading the location file produced by the generator returns the same ids, branches and order, and coordinates, lengths and chainages equal up to the printed number of decimals.", "quantifier": "for every list of cross-section points with ids and branch names without delimiter or line break", "why_tests_cant": "Codec round trip over all lists.", "anchors": ["fm2prof/utils.py: GenerateCrossSectionLocationFile._write_cross_section_location_file", "fm2prof/data_import.py: ImportInputFiles.css_file"]}
{"id": "C29", "title": "Column-wise location data is transposed without loss", "statement": "The list of cross-section records built from the column dictionary has one record per row in order; record k holds exactly the k-th value of every column under that column's name.", "quantifier": "for every dictionary of equally long columns", "why_tests_cant": "All sizes and column sets.", "anchors": ["fm2prof/data_import.py: FmModelData.get_ordered_css_list"]}
{"id": "C30", "title": "The data selected for a cross-section is exactly its control volume", "statement": "The selection for a cross-section consists of exactly the faces (links) classified to it, in order, with equal row counts in all face variables; water level is missing exactly where the depth is zero (or was missing); taking a selection does not change the model data, so selections do not depend on their order.", "quantifier": "for every mesh, classification and sequence of selections", "why_tests_cant": "History and partition property over all meshes.", "anchors": ["fm2prof/data_import.py: FmModelData.get_selection"]}
{"id": "C31", "title": "Missing 2D values are never used as data", "statement": "Entries equal to the no-data value in the depth, level and velocity results are treated as missing when the geometry is built.", "quantifier": "for every 2D result", "why_tests_cant": "Depends on combinations of missing components.", "anchors": ["fm2prof/data_import.py: FmModelData.get_selection", "fm2prof/cross_section.py: CrossSection.build_geometry (get_timeseries)"]}
{"id": "C32", "title": "Nearest-neighbour control volumes partition the mesh", "statement": "Without regions every face and link is assigned to exactly one cross-section and none is nearer; with distinct ids the control volumes are disjoint and their areas add up to the total mesh area.", "quantifier": "for every mesh and every non-empty list of cross-section locations", "why_tests_cant": "All meshes, ties included.", "anchors": ["fm2prof/nearest_neighbour.py: classify_without_regions, _get_class_tree"]}
{"id": "C33", "title": "Regions confine control volumes", "statement": "With regions a face or link is only assigned to a cross-section of the same region, the nearest one of that region; faces of a region without cross-sections belong to no cross-section.", "quantifier": "for every mesh, region labelling and list of cross-sections", "why_tests_cant": "All labelings.", "anchors": ["fm2prof/nearest_neighbour.py: classify_with_regions"]}
{"id": "C34", "title": "Variance classification is an optimal threshold split", "statement": "The roughness classification labels every point main channel or floodplain by comparison with one split value; every main-channel point is rougher-valued (higher Chezy) than every floodplain point; the chosen split minimises, over all unit-spaced candidate splits, the larger of the two group variances; if there are fewer than two candidates all points are main channel.", "quantifier": "for every set of final Chezy values", "why_tests_cant": "Optimality over all candidates and all inputs.", "anchors": ["fm2prof/fm2prof_runner.py: Fm2ProfRunner._classify_roughness_sections_by_variance"]}
{"id": "C35", "title": "Polygon classification is total and consistent", "statement": "Every mesh point and every location gets the label of a polygon that contains it, or the default label if none does; when polygons do not overlap, cross-section locations and mesh nodes at the same place get the same label.", "quantifier": "for every list of polygons, every point-in-polygon relation and every mesh", "why_tests_cant": "All overlaps and orders of polygons.", "anchors": ["fm2prof/polygon_file.py: MultiPolygon.get_points_in_polygon, get_gridpoints_in_polygon, meshkernel_inpolygon"]}
{"id": "C36", "title": "Invalid polygon files are rejected", "statement": "A polygon file with a feature that has no name, a duplicate name, a multi-part geometry, or a section outside main/floodplain1/floodplain2 is rejected; an accepted section polygon file only carries the labels main, floodplain1, floodplain2, with 1, 2, 3 translated.", "quantifier": "for every feature list", "why_tests_cant": "All combinations of properties.", "anchors": ["fm2prof/polygon_file.py: MultiPolygon._polygons_from_geojson_data, polygons, SectionPolygon._validate_section"]}
{"id": "C37", "title": "The in-polygon cache never changes results", "statement": "The labels obtained with a cache are the labels that would be computed without it for the current polygons and the current 2D file.", "quantifier": "for every history of classification calls, changes to the 2D file, changes to the polygon file and to the default label", "why_tests_cant": "History property: stale cache.", "anchors": ["fm2prof/polygon_file.py: MultiPolygon.get_gridpoints_in_polygon, _load_cache, _write_cache"]}
{"id": "C38", "title": "The cache survives interruption", "statement": "If a run is interrupted at any point while the cache is written, the next run still obtains correct labels.", "quantifier": "for every interruption point", "why_tests_cant": "Crash points.", "anchors": ["fm2prof/polygon_file.py: MultiPolygon._write_cache, _load_cache"]}
{"id": "C39", "title": "D-Flow 1D cross-section definitions round trip", "statement": "Reading the definition file written by the exporter returns every cross-section with its id, level, flow-width and total-width columns (to 4 decimals), dike parameters and section widths, in order.", "quantifier": "for every list of cross-sections with ids free of '=' and line breaks and any number of rows", "why_tests_cant": "Codec round trip at text level.", "anchors": ["fm2prof/export.py: Export1DModelData._write_geometry_fm1d", "fm2prof/utils.py: VisualiseOutput.parse_cross_section_definition_file"]}
{"id": "C40", "title": "Exported level columns are ordered", "statement": "SOBEK 3 export: levels as printed are strictly increasing for every profile with non-decreasing levels. D-Flow 1D export: levels as printed do not decrease, and remain strictly increasing whenever consecutive levels differ by at least 0.0001.", "quantifier": "for every profile", "why_tests_cant": "Rounding cases for all values.", "anchors": ["fm2prof/export.py: Export1DModelData._write_geometry_sobek3, _write_geometry_fm1d"]}
{"id": "C41", "title": "SOBEK 3 export writes complete and correct dike data", "statement": "Each cross-section gives one meta row followed by one geometry row per level; the summer dike flag is set exactly when extra volume is present; the flow area and total area columns hold the flow area and the total area.", "quantifier": "for every list of cross-sections", "why_tests_cant": "All lists and values.", "anchors": ["fm2prof/export.py: Export1DModelData._write_geometry_sobek3"]}
{"id": "C42", "title": "Volume table round trip", "statement": "Selecting a cross-section's rows from the exported volume table returns, per column name, exactly the values of that cross-section in order.", "quantifier": "for every list of cross-sections", "why_tests_cant": "Twelve columns and arbitrary many rows; column order mistakes are invisible in file-exists tests.", "anchors": ["fm2prof/export.py: Export1DModelData.export_volumes", "fm2prof/utils.py: VisualiseOutput.get_volume_info_for_css"]}
{"id": "C43", "title": "Roughness files are complete and readable", "statement": "A D-Flow 1D roughness file has exactly one branch block per branch that has the section and one definition per cross-section that has it, each with as many values as the branch block has levels; reading the friction of a cross-section back returns its levels and values.", "quantifier": "for every list of cross-sections and friction tables (made uniform)", "why_tests_cant": "Text-level round trip over all lists and names.", "anchors": ["fm2prof/export.py: Export1DModelData._write_roughness_fm1d", "fm2prof/utils.py: VisualiseOutput.get_roughness_info_for_css"]}
{"id": "C44", "title": "A run without overwrite never touches existing results", "statement": "If any output file already exists and overwriting is not requested, a run returns False and changes no file in the output directory.", "quantifier": "for every state of the output directory and every configuration", "why_tests_cant": "All file system states.", "anchors": ["fm2prof/fm2prof_runner.py: Fm2ProfRunner.run, _output_exists", "fm2prof/export.py: OutputFiles"]}
{"id": "C45", "title": "Output writing is confined and failures are isolated", "statement": "A run only creates or changes the known result files; a failure while exporting one group of files (D-Flow 1D, SOBEK 3, volumes) does not prevent the other groups from being written; without cross-sections nothing is written.", "quantifier": "for every combination of failing exports and every file system state", "why_tests_cant": "All failure combinations.", "anchors": ["fm2prof/fm2prof_runner.py: Fm2ProfRunner._write_output"]}
{"id": "C46", "title": "An interrupted run is noticed", "statement": "If a run is interrupted at any point after output writing has started, a later run without overwrite refuses to run and leaves the files as they were.", "quantifier": "for every interruption point", "why_tests_cant": "Crash points.", "anchors": ["fm2prof/fm2prof_runner.py: Fm2ProfRunner.run, _write_output"]}
{"id": "C47", "title": "Exactly the sufficiently covered cross-sections are generated", "statement": "The generated list contains, in location-file order, exactly the selected cross-sections that have at least ten faces; others are skipped without affecting the rest.", "quantifier": "for every list of locations, selection and classification", "why_tests_cant": "All lists.", "anchors": ["fm2prof/fm2prof_runner.py: Fm2ProfRunner._generate_cross_section_list, _generate_cross_section, _get_css_range"]}
{"id": "C48", "title": "Too large SkipMaps is detected", "statement": "Initialisation reports an error iff the number of skipped maps is not smaller than the number of time steps, and a warning iff it is more than half but smaller; after successful validation at least one time step remains.", "quantifier": "for every number of time steps and setting", "why_tests_cant": "All values.", "anchors": ["fm2prof/fm2prof_runner.py: Fm2ProfRunner._validate_config, _initialise_fm2prof"]}
{"id": "C49", "title": "Log report counts", "statement": "The warnings and errors reported at the end of a run equal the numbers of warnings and errors logged as messages; header and footer lines are produced exactly once per task start and finish.", "quantifier": "for every sequence of logging calls", "why_tests_cant": "Unbounded histories of a stateful formatter.", "anchors": ["fm2prof/common.py: ElapsedFormatter, FM2ProfBase.start_new_log_task, finish_log_task, set_logger_message"]}
{"id": "C50", "title": "Independent projects have independent logs", "statement": "Creating a second project in the same process does not change where the messages of the first are written and each project's report counts its own warnings.", "quantifier": "for every interleaving of two projects' log calls", "why_tests_cant": "Histories and shared global state.", "anchors": ["fm2prof/common.py: FM2ProfBase.create_logger, set_logfile, get_logformatter"]}
{"id": "C51", "title": "Branch rules conserve length", "statement": "Applying any branch rule to a branch keeps the total length assigned to its cross-sections, keeps all columns aligned, and returns a subsequence of the points.", "quantifier": "for every branch of at least four points and every rule; for fewer points the rule either does the same or raises", "why_tests_cant": "All branch lengths and rules.", "anchors": ["fm2prof/utils.py: GenerateCrossSectionLocationFile._apply_branch_rules"]}
{"id": "C52", "title": "Branch exceptions conserve length", "statement": "Removing exception points from a branch keeps the total assigned length and all other points in order, and removes exactly the listed points.", "quantifier": "for every branch and every list of exceptions", "why_tests_cant": "All lists including duplicates and unknown names.", "anchors": ["fm2prof/utils.py: GenerateCrossSectionLocationFile._apply_branch_exceptions"]}
{"id": "C53", "title": "Generated lengths partition the branch", "statement": "The length assigned to each point of a branch is half the distance to its neighbours on both sides, so the lengths are non-negative and add up to the distance between the first and last point.", "quantifier": "for every branch with increasing offsets", "why_tests_cant": "Telescoping over any number of points.", "anchors": ["fm2prof/utils.py: GenerateCrossSectionLocationFile._parse_network_definition_file"]}
{"id": "C54", "title": "Time window of the 1D-2D comparison", "statement": "The data used lies in the closed interval from start to stop time; start and stop outside the data raise an error; without a start or stop the data limits are used.", "quantifier": "for every time axis and window", "why_tests_cant": "All windows, stateful defaults.", "anchors": ["fm2prof/utils.py: ModelOutputReader._apply_startstop_time, start_time, stop_time"]}
{"id": "C55", "title": "Route stations are ordered by river kilometre", "statement": "The stations of a route are exactly those whose branch is in the route and whose name carries a river kilometre, sorted by river kilometre.", "quantifier": "for every station list and route", "why_tests_cant": "All lists.", "anchors": ["fm2prof/utils.py: Compare1D2D.get_route"]}
{"id": "C56", "title": "1D-2D station matching", "statement": "A 1D station is matched to the first 2D station with the same first nine characters, or to none; matching never pairs stations with different prefixes.", "quantifier": "for every pair of station lists", "why_tests_cant": "All lists.", "anchors": ["fm2prof/utils.py: ModelOutputReader._get_1d2d_map"]}
{"id": "C57", "title": "Error statistics are consistent", "statement": "For a station the absolute bias never exceeds the mean absolute error, equality holds when all errors have the same sign, and the mean absolute error is zero exactly when 1D and 2D agree at every common time.", "quantifier": "for every pair of series", "why_tests_cant": "Inequality over all series.", "anchors": ["fm2prof/utils.py: Compare1D2D._compute_statistics"]}
{"id": "C58", "title": "Rating-curve bins", "statement": "Each sample is used in at most one bin, the one whose edges enclose its discharge.", "quantifier": "for every series and strictly increasing bins", "why_tests_cant": "All series.", "anchors": ["fm2prof/utils.py: Compare1D2D._digitize_data"]}
{"id": "C59", "title": "Mask output files round trip", "statement": "Writing mask points and reading the file back returns the same points in order; an invalid extension or an empty list is rejected before any file is created or changed.", "quantifier": "for every list of points, file name and file system state", "why_tests_cant": "All states.", "anchors": ["fm2prof/mask_output_file.py: write_mask_output_file, read_mask_output_file, validate_extension, create_mask_point"]}
{"id": "C60", "title": "Command line project names", "statement": "A project created from the command line is found again by the run and check commands under the same name.", "quantifier": "for every project name", "why_tests_cant": "All names, including dots.", "anchors": ["fm2prof/cli.py: create, run, check"]}
{"id": "C61", "title": "Every profile row above the initial level describes one time step", "statement": "Above the initial water level the rows of a cross-section are, in order, the retained time steps: level, wet area, total width, flow area, total volume and flow volume of a row are the values of that one time step computed from the faces that are wet (and not resting lakes) respectively conveying at that step; the ten rows below come from the initial depths of the faces active at the start.", "quantifier": "for every set of faces with complete data, any number of time steps, skipped maps, lake step, thresholds and length", "why_tests_cant": "Alignment has to survive masking by water level, skipping of maps, correction of depths and prepending of rows for every data set; tests compare one recorded cross-section.", "anchors": ["fm2prof/cross_section.py: CrossSection.build_geometry, _compute_css_above_z0, _extend_css_below_z0, _identify_lakes, _distinguish_conveyance_from_storage"]}
{"id": "C62", "title": "Conveying area is part of the wetted area", "statement": "At every time step the flow area of a cross-section is at most its wet area, so that storage (wet minus flow) is never negative.", "quantifier": "for every set of faces and every time step", "why_tests_cant": "Depends on the interplay of lake detection and velocity thresholds over time, per face.", "anchors": ["fm2prof/cross_section.py: CrossSection.build_geometry, _identify_lakes, _distinguish_conveyance_from_storage"]}
{"id": "C63", "title": "The volume correction fits the 2D volumes", "statement": "The mismatch the correction minimises is zero exactly when the 1D volume equals the 2D volume at every water level with a known 2D volume; the extra total volume is a best fit to the 2D total volume and the extra flow volume is fitted to the 2D flow volume.", "quantifier": "for every pair of volume columns, with any optimiser that finds a minimum", "why_tests_cant": "The target of the fit is one argument deep inside a cost function; a test on one cross-section only sees a plausible number.", "anchors": ["fm2prof/cross_section.py: CrossSection._optimisation_func, _return_volume_error, _optimize_sd_storage"]}
{"id": "C64", "title": "Centre water levels have no gaps", "statement": "Known water levels of the cell nearest to the cross-section are kept, and every missing one becomes the lowest bed level (level minus depth) observed in that cell; without any known level the gaps remain.", "quantifier": "for every depth and level series of equal length", "why_tests_cant": "A test checks one series with one gap; wrong choices (zero, the first level, the mean) look plausible on a flat bed.", "anchors": ["fm2prof/nearest_neighbour.py: get_centre_values"]}
{"id": "C65", "title": "Branch end points move one metre inward", "statement": "The first and last cross-section of a branch are placed on the first and last segment at one metre from the branch ends; all other points stay where they are.", "quantifier": "for every branch with increasing offsets starting at zero whose end segments are at least one metre long", "why_tests_cant": "All branch shapes and point counts, including two-point branches.", "anchors": ["fm2prof/utils.py: GenerateCrossSectionLocationFile._parse_network_definition_file"]}
{"id": "C66", "title": "Every branch of a network definition is read on its own", "statement": "The points of a branch come from its own block only, in file order, with coordinates, ids and offsets of the lines of that block; other lines have no influence.", "quantifier": "for every network definition file of complete branch blocks between arbitrary other lines", "why_tests_cant": "State carried from one block to the next over files of any length.", "anchors": ["fm2prof/utils.py: GenerateCrossSectionLocationFile._parse_network_definition_file"]}
{"id": "C67", "title": "Branch rule files are read completely", "statement": "Every line of a branch rule file gives its branch exactly the listed rule and exceptions; empty lines are passed over.", "quantifier": "for every list of rules with distinct branch names without delimiters", "why_tests_cant": "All files and numbers of exceptions.", "anchors": ["fm2prof/utils.py: GenerateCrossSectionLocationFile._parse_branch_rule_file"]}
{"id": "C68", "title": "Overlapping polygons are reported, not rejected", "statement": "Reading a polygon file logs a warning for each ordered pair of different polygons that intersect and for no other pair; overlap does not change what is read.", "quantifier": "for every list of polygons and every intersection relation", "why_tests_cant": "All pairs, all polygon lists.", "anchors": ["fm2prof/polygon_file.py: MultiPolygon.check_overlap, RegionPolygon._validate_regions, SectionPolygon._validate_sections"]}
{"id": "C69", "title": "Data along a route has a row for every station", "statement": "The table of data along a route has one row for every station of the route, labelled with its river kilometre, in route order.", "quantifier": "for every table and route", "why_tests_cant": "All tables; equal rows are rare in tests.", "anchors": ["fm2prof/utils.py: Compare1D2D.get_data_along_route"]}
{"id": "C70", "title": "Extreme and final statistics are ordered", "statement": "For a station the mean is at most max13, max13 at most max3 and max3 at most the maximum; the mean of the last k values is at most the mean of the k largest.", "quantifier": "for every series and k", "why_tests_cant": "Inequality over all series.", "anchors": ["fm2prof/utils.py: Compare1D2D._apply_stat"]}
{"id": "C71", "title": "Moments of the longitudinal plot lie in the data period", "statement": "The moments for which longitudinal lines are drawn lie within the data period, and each is drawn with the first record that is not before it.", "quantifier": "for every time axis", "why_tests_cant": "All axes, short periods.", "anchors": ["fm2prof/utils.py: Compare1D2D._time_func, _get_nearest_time"]}
{"id": "C72", "title": "Station labels do not overlap", "statement": "Two labelled LMW stations are at least five kilometres apart, and every LMW station without a label lies within five kilometres after a labelled one.", "quantifier": "for every ordered station list", "why_tests_cant": "All lists.", "anchors": ["fm2prof/utils.py: Compare1D2D._lmw_func"]}
{"id": "C73", "title": "Discharge steps of the rating curves", "statement": "At most n discharge steps are chosen, consecutive ones differ, and each is the first discharge of which the level reaches an equally spaced target between the lowest and the highest level.", "quantifier": "for every station curve and n", "why_tests_cant": "All curves with gaps.", "anchors": ["fm2prof/utils.py: Compare1D2D._iter_discharge_steps"]}
{"id": "C74", "title": "The dike search starts at the largest shortage", "statement": "The search for a summer dike starts at the level of the first row where the 2D total volume exceeds the 1D total volume most, with the mismatch at the highest level as extra volume; rows without a 2D volume do not count.", "quantifier": "for every pair of volume columns of equal length whose last 2D volumes are known, and every optimisation method", "why_tests_cant": "All columns and positions of missing values; the start is visible only when the search does not move.", "anchors": ["fm2prof/cross_section.py: CrossSection.calculate_correction, _optimize_sd_storage"]}
{"id": "C75", "title": "Malformed configuration files are refused as a whole", "statement": "A configuration file with a line that is neither blank, comment, header, option nor continuation, with an option outside a section, or with a section or option given twice, raises a parser error; no project is made from it and no part of it is loaded.", "quantifier": "for every file content with such a line at any position", "why_tests_cant": "The bad line may be anywhere in a file of any length.", "anchors": ["fm2prof/ini_file.py: IniFile._get_inifile_params, load_configuration_from_file", "fm2prof/fm2prof_runner.py: Fm2ProfRunner.__init__"]}
{"id": "C76", "title": "Map file data reaches the cross-sections unchanged", "statement": "Everything a cross-section gets (coordinates, areas, bed levels, depths, levels, velocities, roughness of links) is what the map file says about its faces and its internal links, each taken once; a face or link is in the data of at most one cross-section; a file in which a needed variable is missing is refused.", "quantifier": "for every map file with consistent dimensions, cached or uncached classification, with or without region and section polygons", "why_tests_cant": "Any number of faces, links and time steps, any order of boundary and internal links; an index shift between full and internal link arrays passes on small regular meshes.", "anchors": ["fm2prof/data_import.py: FMDataImporter.import_dflow2d, _dflow2d_face_data, _dflow2d_edge_data, _dflow_result_data", "fm2prof/fm2prof_runner.py: Fm2ProfRunner._set_fm_model_data", "fm2prof/polygon_file.py: GridPointsInPolygonResults"]}
{"id": "C77", "title": "Control volumes of a run cover the mesh exactly once", "statement": "Without a region file, every face and every internal link of the map file is in the data of exactly one cross-section, to which no cross-section is nearer, and the areas of the control volumes add up to the area of the mesh.", "quantifier": "for every map file with consistent dimensions and every list of cross-sections with distinct ids", "why_tests_cant": "All meshes and all positions of cross-sections, through the whole chain from file to selection.", "anchors": ["fm2prof/fm2prof_runner.py: Fm2ProfRunner._set_fm_model_data", "fm2prof/data_import.py: FmModelData.get_selection"]}
{"id": "C78", "title": "Roughness comes from internal links only, in every file version", "statement": "The roughness of the links is read for exactly the links of type 1, in their order; a file with the older variable mesh2d_cftrt gives the same data as one with mesh2d_czu, which takes precedence.", "quantifier": "for every map file with consistent dimensions, every pattern of link types", "why_tests_cant": "Every pattern of boundary and internal links and both versions.", "anchors": ["fm2prof/data_import.py: FMDataImporter.import_dflow2d"]}
{"id": "C79", "title": "SOBEK 3 roughness table is complete", "statement": "The SOBEK 3 roughness file has, per section and per cross-section with that section, one row per entry of the friction table with branch, chainage, section name, level and value under the right column; an unknown section stops the export.", "quantifier": "for every list of cross-sections and friction tables", "why_tests_cant": "Any number of sections, cross-sections and entries, and columns hidden in a row of 17 fields.", "anchors": ["fm2prof/export.py: Export1DModelData._write_roughness_sobek3"]}
{"id": "C80", "title": "From the 2D results of a control volume to a valid cross-section", "statement": "A control volume of at least ten faces with a known water level at its centre becomes a cross-section whose table is valid (levels and widths strictly increasing, flow width at most total width, widths at least the configured minimum, at most the configured number of points, first and last row of the full table kept), whose section widths cover the flow width, whose floodplain base lies below the crest, and which has a friction table for each section of its links; a smaller control volume is left out.", "quantifier": "for every map file with numbers as results, every set of locations, every configuration with a minimum of two points", "why_tests_cant": "Composition of seven steps over arbitrary meshes and time series.", "anchors": ["fm2prof/fm2prof_runner.py: Fm2ProfRunner._generate_cross_section", "fm2prof/fm2prof_runner.py: Fm2ProfRunner._build_cross_section_geometry", "fm2prof/cross_section.py: CrossSection.build_geometry"]}
{"id": "C81", "title": "The files with faces and links are complete", "statement": "face_output.geojson has exactly one point per face of each generated cross-section, with its coordinates, cross-section, bed level, region, section and whether it is a lake; edge_output.geojson has one point per link with its cross-section and section; nothing else in the output directory changes.", "quantifier": "for every list of generated cross-sections", "why_tests_cant": "Any number of faces and links, and an exception at one point would silently drop the rest.", "anchors": ["fm2prof/cross_section.py: CrossSection.set_face_output_list", "fm2prof/cross_section.py: CrossSection.set_edge_output_list", "fm2prof/fm2prof_runner.py: Fm2ProfRunner._generate_geojson_output"]}
{"id": "C82", "title": "A figure shows the exported data", "statement": "The figure of a cross-section shows, at every exported level, the total and flow profile of the definition file symmetric about the axis, the widths of the main section and the floodplain, the lowest water level of the 2D model, the crest level (marked as cropped if and only if it lies outside the levels), the 1D and 2D volumes of the volume file under the label they belong to, and the friction tables of the roughness files; nothing else is drawn.", "quantifier": "for every list of exported cross-sections, every cross-section of it and every number format that round-trips", "why_tests_cant": "The figure is an image: tests compare at most that a file exists, while every label must show the right column for every exported result.", "anchors": ["fm2prof/utils.py: VisualiseOutput.figure_cross_section", "fm2prof/utils.py: VisualiseOutput._plot_geometry", "fm2prof/utils.py: VisualiseOutput._plot_volume", "fm2prof/utils.py: VisualiseOutput._plot_roughness"]}
{"id": "C83", "title": "Every cross-section of a run gets its figure", "statement": "After post-processing every cross-section has a figure of the results of that run; a cross-section whose figure cannot be drawn is reported and does not keep the others from being drawn; all figures can be drawn with one call.", "quantifier": "for every output directory, every earlier content of the figure directory and every list of cross-sections", "why_tests_cant": "Depends on what an earlier run left behind and on failures in the middle of the loop.", "anchors": ["fm2prof/cli.py: run", "fm2prof/utils.py: VisualiseOutput.figure_cross_section", "fm2prof/utils.py: VisualiseOutput.plot_cross_sections"]}
{"id": "C84", "title": "Cross-sections and roughness along a branch", "statement": "Asking for the cross-sections of a branch gives exactly the cross-sections of that branch, in order, with a chainage that runs on over its sub-branches, and refuses a branch that does not exist; the roughness graph shows the least and greatest roughness of each of them at its chainage.", "quantifier": "for every set of cross-section names, every branch name", "why_tests_cant": "Any number of branches and sub-branches; names are split at underscores.", "anchors": ["fm2prof/utils.py: VisualiseOutput.get_cross_sections_for_branch", "fm2prof/utils.py: VisualiseOutput.figure_roughness_longitudinal"]}
{"id": "C85", "title": "Envelopes of the control volumes", "statement": "Every run writes for each generated cross-section one polygon with its name, whose corners are faces of its control volume and which contains all of them; a cross-section without an envelope does not keep the others from being written, and the file is valid GeoJSON (closed rings).", "quantifier": "for every list of generated cross-sections and every convex hull routine that is correct", "why_tests_cant": "Depends on arbitrary point sets, including degenerate ones.", "anchors": ["fm2prof/fm2prof_runner.py: Fm2ProfRunner._export_envelope", "fm2prof/fm2prof_runner.py: Fm2ProfRunner._finalise_fm2prof"]}
{"id": "C86", "title": "The definition file of a run holds valid tables", "statement": "For every generated cross-section the definition file that a run writes has one entry with its name, and the table read back from it is valid: as many widths as levels, at least two and at most the configured number of rows, levels and widths strictly increasing, flow width at most total width in every row, widths not below the configured minimum, section widths and crest as generated and floodplain base below the crest, all to the precision of the file (0.0001).", "quantifier": "for every list of generated cross-sections with numbers up to seven thousand million, every number format of Python floats that round-trips", "why_tests_cant": "The property is about the composition of generation, formatting with four decimals and parsing; rounding can undo what the generation guarantees.", "anchors": ["fm2prof/fm2prof_runner.py: Fm2ProfRunner._finalise_fm2prof", "fm2prof/export.py: Export1DModelData.export_geometry", "fm2prof/utils.py: VisualiseOutput.cross_sections"]}
{"id": "C87", "title": "The locations file places every cross-section", "statement": "The locations file that is written for a list of cross-sections holds, besides its general block, exactly one block per cross-section, in order: its id, its branch, its chainage and the reference to the definition of the same name, so that the k-th location refers to the k-th entry of the definition file. The plain geometry table holds one row per cross-section and level with the chainage, the level, the total width and the flow width.", "quantifier": "for every list of cross-sections whose names fit on a line, every number format of Python floats that round-trips", "why_tests_cant": "A test reads one file; the claim is about what any reader of the format gets for all names, branches and chainages, names with an equality sign included.", "anchors": ["fm2prof/export.py: Export1DModelData.export_cross_section_locations", "fm2prof/export.py: Export1DModelData._write_geometry_testformat"]}
{"id": "C88", "title": "Input files are found from the configuration file", "statement": "After a configuration file has been loaded, every known input key refers to the file named there, seen from the directory of the configuration file, if that file exists, and keeps its value otherwise. A configuration that is printed, saved next to the file it came from and loaded again refers to the same input files.", "quantifier": "for every configuration of the shape of the template, every file system, working directory and way to name the configuration file", "why_tests_cant": "Whether a path is found depends on the working directory, the way the file is named and what exists; a test fixes all of these.", "anchors": ["fm2prof/ini_file.py: IniFile._extract_input_files", "fm2prof/ini_file.py: IniFile.print_configuration", "fm2prof/ini_file.py: IniFile.get_input_file"]}
{"id": "C89", "title": "The roughness of a run reaches the roughness files", "statement": "After a run the roughness file of a section gives for every cross-section that has this section a table over common levels: 0.1 apart, from the lowest level of the section in the whole run to below the highest one. The values are those of the cross-section's own friction table at these levels, constant outside its levels and linear between them, to the precision of the file.", "quantifier": "for every list of generated cross-sections with non-empty friction tables, every section, every number format of Python floats that round-trips, every binary search that brackets", "why_tests_cant": "The tables of all cross-sections are merged, interpolated, grouped per branch and printed; a test sees a few numbers of one run and not which cross-section they came from.", "anchors": ["fm2prof/fm2prof_runner.py:323-331", "fm2prof/cross_section.py:48-100", "fm2prof/export.py"]}
{"id": "C90", "title": "Every configuration parameter is known, typed and used", "statement": "Every parameter that the program reads from its configuration is a parameter of the template; in every project that can be opened it has a value of the type declared there, whatever the configuration file says, and without a file its documented default. Every parameter of the template is read by the program, so that changing it can have an effect.", "quantifier": "for every configuration file, file system, working directory and spelling of the names", "why_tests_cant": "A misspelled or unread parameter raises nothing: the program goes on with None or with the same result. A test notices only the parameters it varies.", "anchors": ["fm2prof/ini_file.py:202-220", "fm2prof/configurationfile_template.json", "fm2prof/cross_section.py:126-134", "fm2prof/fm2prof_runner.py:602-609"]}
{"id": "C91", "title": "A configuration file written by hand is read as it is meant", "statement": "Loading a configuration file gives every parameter in the section [parameters] the value written after its key, in the type of the parameter; a parameter that is not there gets the value in the section [DEFAULT], and otherwise keeps its value. Letter case of section names and keys, blanks, blank lines, comment lines and remarks after a value make no difference.", "quantifier": "for every file of section headings, options, comment lines and blank lines in which every section and every option of a section is given once, every template, and every parameter", "why_tests_cant": "Files are written by users; the combinations of comments, blanks, delimiters and letter case cannot be enumerated.", "anchors": ["fm2prof/ini_file.py: IniFile._get_inifile_params", "fm2prof/ini_file.py: IniFile._extract_parameters", "fm2prof/ini_file.py: IniFile.load_configuration_from_file"]}
{"id": "C92", "title": "Data that do not fit are refused", "statement": "Columns that have another number of rows than their table, empty lists of which a smallest, largest, nearest or last value is asked, texts that should be numbers, and names and positions that are not there raise an error of a fixed kind; nothing is computed from them.", "quantifier": "for every table, list, text, name and position", "why_tests_cant": "Error branches are rarely taken in tests, and which error is raised decides whether a caller catches it.", "anchors": ["fm2prof/data_import.py", "fm2prof/nearest_neighbour.py", "fm2prof/polygon_file.py: PolygonFile", "fm2prof/utils.py: NetworkDefinitionFile", "fm2prof/ini_file.py: IniFile"]}
{"id": "C93", "title": "A polygon file is read as it is written", "statement": "A polygon file that another program wrote as GeoJSON is read with exactly its features in their order: the names, labels and rings in the file, whatever blanks, line ends, escapes and further members the file contains. A file that is not JSON, or of which the end is missing, is refused with a polygon error and never read in part.", "quantifier": "for every JSON text, every list of features it denotes, and every place where the file is cut off", "why_tests_cant": "Files come from many programs; spelling variants and cut-off points cannot be enumerated.", "anchors": ["fm2prof/polygon_file.py: MultiPolygon.from_file", "fm2prof/polygon_file.py: MultiPolygon._polygons_from_geojson_data"]}
{"id": "C94", "title": "The SOBEK 3 geometry file of a run holds valid tables", "statement": "For every generated cross-section the SOBEK 3 geometry file holds one meta row with its name, branch, chainage and section widths, directly followed by its table. The table that is read back is valid: the levels increase strictly and are the generated ones, each raised by its row number times 0.00001; the widths are the generated ones, increase strictly and are not below the configured minimum; the flow width never exceeds the total width; there are at least two rows and not more than configured. The dike columns are filled exactly when there is extra volume, and then the floodplain base lies below the crest.", "quantifier": "for every list of generated cross-sections with names and branches that are single cells, levels within the usual range and up to a million rows", "why_tests_cant": "The file is the composition of generation, level shift and printing; a table can become invalid by rounding in print, and tests compare single files.", "anchors": ["fm2prof/export.py: Export1DModelData._write_geometry_sobek3", "fm2prof/fm2prof_runner.py: Fm2ProfRunner._finalise_fm2prof"]}
{"id": "C95", "title": "Roughness tables give the friction that belongs to a level", "statement": "After the interpolation the roughness table of every cross-section gives at each level the friction that the 2D model showed at that water level: the friction of a time step at the level of that time step, and between two successive time steps the value on the line between them. The table of a cross-section depends on its own results and the range of the levels only: a cross-section whose levels are unknown does not change the tables of the others, and a failure of the interpolation is reported.", "quantifier": "for every list of generated cross-sections, every course of the water level (rising or falling), every section", "why_tests_cant": "The interpolation merges all cross-sections and needs increasing levels; tests use rising floods with known levels.", "anchors": ["fm2prof/cross_section.py: CrossSectionHelpers._interpolate_friction_across_cross_sections", "fm2prof/common.py: FrictionTable.interpolate", "fm2prof/fm2prof_runner.py: Fm2ProfRunner._finalise_fm2prof"]}
{"id": "C96", "title": "The result and the log of a run tell whether its output is complete", "statement": "run returns True exactly when no error occurred. A run that returns True without an error message has generated a cross-section for every selected row and has written every output file of these cross-sections completely; every error message stands for something that is missing. A run that returns False has left the existing output as it was and says so in the log.", "quantifier": "every configuration, every list of cross-sections, every set of files that cannot be opened, every failure while writing", "why_tests_cant": "the failures that count are combinations of rows that cannot be built, files that cannot be opened and writers that stop halfway; a test sees the few it provokes", "anchors": ["fm2prof/fm2prof_runner.py:Fm2ProfRunner.run", "fm2prof/fm2prof_runner.py:Fm2ProfRunner._run_inifile", "fm2prof/fm2prof_runner.py:Fm2ProfRunner._write_output", "fm2prof/export.py:Export1DModelData._write_geometry_sobek3"]}
{"id": "C97", "title": "The volumes file of a run describes its cross-sections", "statement": "volumes.csv holds, for every generated cross-section, one row per level with all eleven columns, and can be read back. The 2D areas and volumes in a row are those of the time step with that level, and 2D volumes are missing below the initial level. The 1D volumes in a row are the length times the integral of the 1D widths over the levels in the rows up to it; the corrected volumes differ from them by the released share of the volume behind the summer dike, and only if the correction is switched on and succeeds.", "quantifier": "for every list of cross-sections, every control volume with finite data, every setting of the correction", "why_tests_cant": "the columns of the file are computed at different moments of the generation (before and after the check of the table), so that only a comparison of all rows with the 2D data would show which column belongs to which", "anchors": ["fm2prof/cross_section.py:CrossSection.build_geometry", "fm2prof/cross_section.py:CrossSection.calculate_correction", "fm2prof/cross_section.py:CrossSection.check_requirements", "fm2prof/fm2prof_runner.py:Fm2ProfRunner._build_cross_section_geometry", "fm2prof/export.py:OutputExporter.export_volumes"]}
{"id": "C98", "title": "The order in which the faces are listed does not matter", "statement": "The cross-section generated for a location depends on the set of faces in its control volume and not on the order in which the 2D output file lists them: levels, widths, roughness tables, section widths, summer dike and floodplain base level are the same for every order of the faces (or the same exception is raised), and the points of the output file are the same up to their order.", "quantifier": "for every control volume, every order of its faces, every configuration and every search for the summer dike that depends on the geometry only", "why_tests_cant": "the order of the faces is an accident of the mesh generator and of the partitioning of the 2D computation; a test keeps the order of its input file", "anchors": ["fm2prof/cross_section.py:CrossSection.build_geometry", "fm2prof/cross_section.py:CrossSection._identify_lakes", "fm2prof/cross_section.py:CrossSection._distinguish_conveyance_from_storage", "fm2prof/cross_section.py:CrossSection._build_roughness_tables", "fm2prof/fm2prof_runner.py:Fm2ProfRunner._generate_cross_section"]}
{"id": "C99", "title": "The vertical datum does not matter", "statement": "If the bed levels and the water levels of the 2D results are all raised by the same amount, the cross-section is raised by that amount and nothing else changes: the levels of the cross-section, of the roughness tables, of the summer dike and of the floodplain base are raised, and no width, area, volume or roughness changes.", "quantifier": "for every control volume with finite data, every amount, every configuration and every search for the summer dike that follows the datum itself", "why_tests_cant": "a test has one datum; a level that is compared with a constant is only found by comparing two runs of which the datum differs", "anchors": ["fm2prof/cross_section.py:CrossSection.build_geometry", "fm2prof/cross_section.py:CrossSection.calculate_correction", "fm2prof/cross_section.py:CrossSection._compute_floodplain_base", "fm2prof/cross_section.py:CrossSection.reduce_points", "fm2prof/fm2prof_runner.py:Fm2ProfRunner._generate_cross_section"]}
{"id": "C100", "title": "The resolution of the 2D mesh does not matter", "statement": "If faces of the 2D mesh are divided into smaller faces with the same bed level, water levels, depths, velocities and section, the cross-section stays the same: levels, total and flow widths, areas, volumes, section widths and floodplain base level.", "quantifier": "for every control volume, every division of its faces, every data in the faces, every configuration", "why_tests_cant": "a test has one mesh for its river; only the comparison of two meshes of the same river shows a quantity that counts faces instead of area", "anchors": ["fm2prof/cross_section.py:CrossSection.build_geometry", "fm2prof/cross_section.py:CrossSection._distinguish_conveyance_from_storage", "fm2prof/cross_section.py:CrossSection._compute_section_widths", "fm2prof/cross_section.py:CrossSection._compute_floodplain_base", "fm2prof/fm2prof_runner.py:Fm2ProfRunner._generate_cross_section"]}
{"id": "C101", "title": "What follows the highest water level does not matter", "statement": "If a 2D run is continued after its highest water level, with output maps in which the water at the location of the cross-section is not higher than before, the cross-section stays the same: levels, widths, areas, volumes, crest level, section widths, floodplain base level and the roughness at every level.", "quantifier": "for every control volume, every number of additional output maps, every data in them, every configuration", "why_tests_cant": "a test has one flood wave, and the wave of the test cases rises until the end of the run; only the comparison with a longer run shows what a falling limb does", "anchors": ["fm2prof/cross_section.py:CrossSection.build_geometry", "fm2prof/cross_section.py:CrossSection._check_monotonicity", "fm2prof/cross_section.py:CrossSection._identify_lakes", "fm2prof/cross_section.py:CrossSection._build_roughness_tables", "fm2prof/cross_section.py:CrossSectionHelpers.interpolate_friction_across_cross_sections"]}
{"id": "C102", "title": "The length of the control volume cancels", "statement": "If a control volume is made k times as long with the same river in it, so that every face has k times the area, the cross-section stays the same: levels, total and flow widths, roughness, section widths, floodplain base level, and crest level and areas of the summer dike; the volumes become k times as large, and the search for the dike is given the same relative errors as long as all measured volumes are at least one cubic metre.", "quantifier": "for every control volume, every factor k > 0, every configuration including the legacy conveyance method, every search for the dike that follows the unit of volume", "why_tests_cant": "the test data have one length for each cross-section; only a comparison of two runs shows that a width is an area divided by the length everywhere and that no threshold is left that depends on the length", "anchors": ["fm2prof/cross_section.py:CrossSection.build_geometry", "fm2prof/cross_section.py:CrossSection._extend_css_below_z0", "fm2prof/cross_section.py:CrossSection.calculate_correction", "fm2prof/cross_section.py:CrossSection._return_volume_error", "fm2prof/cross_section.py:CrossSection._compute_section_widths"]}
{"id": "C103", "title": "The output interval of the 2D run does not matter", "statement": "If the maps of a 2D run are written at a longer interval, so that a subset of the maps remains, the cross-section has the corresponding subset of its rows: at each remaining level the total width, flow width, wet and flow area and volumes are the same, the rows below the first level are the same, and the roughness tables have the corresponding rows.", "quantifier": "for every control volume, every subset of the maps that begins with the first one, every configuration", "why_tests_cant": "a test case has one output interval; whether a result at one level depends on the maps between two levels shows only in the comparison of two runs", "anchors": ["fm2prof/cross_section.py:CrossSection.build_geometry", "fm2prof/cross_section.py:CrossSection._identify_lakes", "fm2prof/cross_section.py:CrossSection._compute_css_above_z0", "fm2prof/cross_section.py:CrossSection._build_roughness_tables"]}
{"id": "C104", "title": "A selection of cross-sections is computed as in the whole run", "statement": "A cross-section that is computed with a selection of the locations (CssSelection) is the same as in the run over all locations: geometry, areas, crest level, section widths, floodplain base level and the roughness at every level; the order of the selection changes nothing but the order of the results, and a location outside the selection has no influence.", "quantifier": "for every list of locations, every selection in every order, every 2D data", "why_tests_cant": "a test would have to compare runs with all selections; the only step in which cross-sections meet is the interpolation of the friction, at the end of the run", "anchors": ["fm2prof/fm2prof_runner.py:Fm2ProfRunner._generate_cross_section_list", "fm2prof/fm2prof_runner.py:Fm2ProfRunner._get_css_range", "fm2prof/fm2prof_runner.py:Fm2ProfRunner._finalise_fm2prof", "fm2prof/cross_section.py:CrossSectionHelpers.interpolate_friction_across_cross_sections"]}
{"id": "C105", "title": "The order of the locations does not matter", "statement": "If the rows of the cross-section location file are put in another order, every face and every flow link belongs to the control volume of the same cross-section as before, with and without regions, and the run gives the same cross-sections in the new order.", "quantifier": "for every map file, every location file and every order of its rows, every region and section file, every search for a nearest location", "why_tests_cant": "all orders of all files; the nearest neighbour search builds its tree from the rows in their order", "anchors": ["fm2prof/nearest_neighbour.py:classify_with_regions", "fm2prof/nearest_neighbour.py:classify_without_regions", "fm2prof/nearest_neighbour.py:_get_class_tree", "fm2prof/fm2prof_runner.py:Fm2ProfRunner._set_fm_model_data", "fm2prof/fm2prof_runner.py:Fm2ProfRunner._generate_cross_section_list"]}
{"id": "C106", "title": "The coordinate system does not matter", "statement": "If the nodes, faces, flow links, locations and polygons are given in another coordinate system (translated, rotated or mirrored, with the velocities turned along), every cross-section is the same: levels, widths, volumes, roughness, section widths and floodplain base; only the coordinates in the output files differ.", "quantifier": "for every map file with the dimensions of the format, every motion of the plane, every configuration, every location, region and section file such that no face or link has two nearest locations, every test for a point in a polygon and every square root that depend on the geometry and on the value alone", "why_tests_cant": "an infinite group of transformations of arbitrary meshes; every column of the import takes part", "anchors": ["fm2prof/data_import.py: FMDataImporter.import_dflow2d", "fm2prof/data_import.py: FmModelData.get_selection", "fm2prof/polygon_file.py: MultiPolygon.get_points_in_polygon, get_gridpoints_in_polygon, meshkernel_inpolygon", "fm2prof/nearest_neighbour.py:classify_with_regions", "fm2prof/fm2prof_runner.py:Fm2ProfRunner._set_fm_model_data", "fm2prof/cross_section.py: CrossSection.set_face_output_list"]}
{"id": "C107", "title": "A comparison can be repeated from its csv files", "statement": "After a comparison of 1D and 2D results has been made in an output directory it can be made again from the csv files in that directory alone: the netCDF files are not needed, and the tables, the rating curves and the selections of a time window are those of the first time.", "quantifier": "for every pair of netCDF files (any stations, times, values and missing matches), every state of the output directory, every conversion of numbers and names by the csv format, and every time window", "why_tests_cant": "the state left behind by earlier and failed runs has unboundedly many forms; the time format depends on all times of a file together", "anchors": ["fm2prof/utils.py: ModelOutputReader.load_flow1d_data, load_flow2d_data, get_1d2d_map, _import_1d_observations, _import_2d_observations, _apply_startstop_time", "fm2prof/utils.py: Compare1D2D.__init__, digitize_data"]}
{"id": "C108", "title": "A longitudinal difference compares one station at one time", "statement": "In the longitudinal figure of a route each line of differences has, at the river kilometre of every station of the route, the 1D level minus the 2D level of that station: at one moment for the lines in time, and of the same statistic for the lines of a statistic.", "quantifier": "for all 1D and 2D tables (any times, stations, missing values), every route and every statistic", "why_tests_cant": "all combinations of times and values; stations at a junction and different output times are rare in tests", "anchors": ["fm2prof/utils.py: Compare1D2D._time_func, _stat_func, _apply_stat, get_data_along_route_for_time, get_data_along_route, figure_longitudinal"]}
{"id": "C109", "title": "The summary of the error statistics covers every station once", "statement": "The summary file of the statistics has one line for each branch that occurs in the names of the stations, in the order of their first stations, with the means of the bias and of the standard deviation over the stations of the branch, and over those of them that are LMW stations, leaving out missing values; each station counts in exactly one line.", "quantifier": "for every list of stations, with any names and any known or missing statistics", "why_tests_cant": "all lists of stations", "anchors": ["fm2prof/utils.py: Compare1D2D.statistics_to_file, _compute_statistics, _names_to_branches"]}
{"id": "C110", "title": "A heat map shows every station of the route in the window", "statement": "The heat map in time along a route has a row for each station of the route and a column for each moment of the chosen window at which some station has a 1D and a 2D level, and holds there the 1D level minus the 2D level.", "quantifier": "for all 1D and 2D tables (any times, stations, missing values), every route and every window", "why_tests_cant": "all tables; equal differences and moments outside the window are not seen in a picture", "anchors": ["fm2prof/utils.py: Compare1D2D.heatmap_time, heatmap_rating_curve, get_data_along_route"]}
{"id": "C111", "title": "The statistics in the figure of a station belong to its lines", "statement": "The figure of a station shows the 1D and the 2D levels of the station in the chosen window and their difference, and the statistics in its legend are those of these lines.", "quantifier": "for all tables, windows and stations, and for every series of figures and changes of the window", "why_tests_cant": "state of the object; all series of calls", "anchors": ["fm2prof/utils.py: Compare1D2D.figure_at_station, _get_statistics, _compute_statistics, statistics_to_file"]}
{"id": "C112", "title": "The discharge distribution adds to one hundred percent", "statement": "The figure of the discharge distribution over two stations shows, for both models at each moment of the chosen window, the shares of the two stations in their total discharge; they add to 100 percent, lie between 0 and 100 for discharges that are not negative, and are missing if one of the discharges is; and it shows the difference of the discharges for both stations in the window.", "quantifier": "for all tables of discharges with any missing values, all pairs of stations and all windows", "why_tests_cant": "all discharges, missing values included", "anchors": ["fm2prof/utils.py: Compare1D2D.figure_compare_discharge_at_stations"]}
{"id": "C113", "title": "Faces that stay dry do not matter", "statement": "Faces of a control volume that hold no water in any of the used time steps, and links without water, do not change the cross-section: with or without them levels, total and flow widths, areas, volumes, section widths, floodplain base level and roughness tables are the same.", "quantifier": "for every control volume, every set of dry faces and links in whatever place of the lists, every data in the faces, every configuration", "why_tests_cant": "a test has one mesh with its dry land; only the comparison with the same river without the dry land shows a quantity in which faces without water take part", "anchors": ["fm2prof/cross_section.py:CrossSection.build_geometry", "fm2prof/cross_section.py:CrossSection._distinguish_conveyance_from_storage", "fm2prof/cross_section.py:CrossSection._compute_section_widths", "fm2prof/cross_section.py:CrossSection._compute_floodplain_base", "fm2prof/cross_section.py:CrossSection._build_roughness_tables", "fm2prof/fm2prof_runner.py:Fm2ProfRunner._generate_cross_section"]}
{"id": "C114", "title": "Skipped maps are as good as maps that are not in the file", "statement": "With SkipMaps = k + j the caches, the classes and the cross-sections are those of the same file without its first k maps and SkipMaps = j, and the same exception is raised if there is one; two map files that agree after their skipped maps give the same cross-sections, whatever the skipped maps contain.", "quantifier": "every map file with more than k maps, every j >= 0, all settings, locations, caches and polygon files", "why_tests_cant": "SkipMaps exists to keep the initial conditions of the 2D model out of the 1D model; a skipped map that still leaks into levels, widths or friction would be a silent error", "anchors": ["fm2prof/cross_section.py:CrossSection.build_geometry", "fm2prof/cross_section.py:CrossSection._build_roughness_tables", "fm2prof/fm2prof_runner.py:Fm2ProfRunner._validate_config_after_initalization"]}
{"id": "C115", "title": "A plot style changes the look of a figure and not what it shows", "statement": "Applying a style keeps everything that is drawn in the axes, puts every labelled line of the figure and every additional label in one legend, once and in order, and shows dates exactly on the axes that show times; an unknown style is refused before anything changes, and applying the style twice is the same as applying it once.", "quantifier": "every figure, style name, set of additional labels and state of the plotting library", "why_tests_cant": "figures are looked at, not compared; a date format on the wrong axis or a legend entry that is lost for one kind of figure only is not noticed", "anchors": ["fm2prof/utils.py:PlotStyles.apply", "fm2prof/utils.py:PlotStyles._style_figure", "fm2prof/utils.py:PlotStyles._initiate", "fm2prof/utils.py:PlotStyles._is_timeaxis", "fm2prof/utils.py:PlotStyles.set_locale", "fm2prof/utils.py:PlotStyles.van_veen"]}
{"id": "C116", "title": "A map that occurs twice does not change the cross-sections", "statement": "If a map occurs twice in a row in the 2D results, as where a run was restarted, every generated cross-section, its roughness on the common levels included, is the same as without the copy.", "quantifier": "every map file, repeated map, number of skipped maps, setting and location", "why_tests_cant": "runs are tested on results without restarts; a copy changes means, indices of time steps and the levels between which friction is interpolated, which shows only if both files are compared", "anchors": ["fm2prof/cross_section.py:CrossSection.build_geometry", "fm2prof/cross_section.py:CrossSection._identify_lakes", "fm2prof/cross_section.py:CrossSection._check_monotonicity", "fm2prof/cross_section.py:CrossSection._build_roughness_tables", "fm2prof/cross_section.py:CrossSectionHelpers.interpolate_friction_across_cross_sections", "fm2prof/data_import.py:FmModelData.get_selection"]}
{"id": "C117", "title": "A run that overwrites leaves nothing of an earlier run", "statement": "A run that overwrites earlier results gives the result files that it gives in an empty directory, whatever was there before, and running it once more changes no result file.", "quantifier": "for every input, every state of the output directory and every set of files that can not be opened", "why_tests_cant": "test runs start in an empty directory or repeat the same run; an old file that stays next to new ones is only seen if the two runs differ in the sections or in the cross-sections they have", "anchors": ["fm2prof/fm2prof_runner.py: Fm2ProfRunner.run", "fm2prof/fm2prof_runner.py: Fm2ProfRunner._write_output", "fm2prof/export.py: OutputFiles"]}
{"id": "C118", "title": "What happens outside a control volume does not matter for its cross-section", "statement": "If the 2D results of two runs on the same mesh differ only in faces and links outside the control volume of a location, that location gets the same cross-section.", "quantifier": "for every mesh, every pair of results on it, all settings, region and section polygons or none, and every location", "why_tests_cant": "a test with another 2D result checks the outcome for that result as a whole; that a value is not influenced by faces far away is a statement about all values those faces can have", "anchors": ["fm2prof/data_import.py: FmModelData.get_selection", "fm2prof/fm2prof_runner.py: Fm2ProfRunner._set_fm_model_data", "fm2prof/fm2prof_runner.py: Fm2ProfRunner._generate_cross_section"]}
{"id": "C119", "title": "The roughness does not change the geometry", "statement": "Two runs whose 2D results differ only in the Chezy values give cross-sections with the same levels, widths, dike and section widths.", "quantifier": "for every map file, every replacement of its Chezy values, all settings, region and section polygons or none, and every location", "why_tests_cant": "a test compares the output for one roughness field with expected numbers; that the roughness field reaches nothing but the roughness tables concerns all fields", "anchors": ["fm2prof/cross_section.py: CrossSection.build_geometry", "fm2prof/fm2prof_runner.py: Fm2ProfRunner._set_fm_model_data", "fm2prof/fm2prof_runner.py: Fm2ProfRunner._generate_cross_section"]}
{"id": "C120", "title": "The velocities change the conveyance only", "statement": "Two runs whose 2D results differ only in the flow velocities give cross-sections with the same levels, total widths, crest level, extra total area, roughness tables and floodplain base.", "quantifier": "for every map file, every replacement of its velocities, all settings, and every location", "why_tests_cant": "a test compares the output for one velocity field with expected numbers; that the velocity field reaches nothing but the conveying part concerns all fields", "anchors": ["fm2prof/cross_section.py: CrossSection.build_geometry", "fm2prof/cross_section.py: CrossSection.calculate_correction", "fm2prof/cross_section.py: CrossSection.reduce_points"]}
{"id": "C121", "title": "A setting changes only the part of a cross-section that it is for", "statement": "Where two values of one setting both give the cross-section: FrictionweighingMethod changes the roughness tables only, SDFloodplainBase the floodplain base only, the summer dike settings the dike and the floodplain base only, MaximumPointsInProfile the simplified columns only, MinimumTotalWidth no level, dike, roughness or base, and the conveyance settings no level, total width or roughness.", "quantifier": "for all data of a control volume, all values of the setting and of all other settings, and every result of the dike search", "why_tests_cant": "tests vary a setting for one data set and look at the column it is expected to change; that nothing else changes, for all data and values, is not looked at", "anchors": ["fm2prof/fm2prof_runner.py: Fm2ProfRunner._generate_cross_section", "fm2prof/cross_section.py: CrossSection.build_geometry", "fm2prof/cross_section.py: CrossSection.reduce_points", "fm2prof/cross_section.py: CrossSection.check_requirements"]}
{"id": "C122", "title": "Lower velocity thresholds never make the flow width smaller", "statement": "If AbsoluteVelocityThreshold or RelativeVelocityThreshold or both are lowered, the levels and total widths of a cross-section are the same and the flow width at every level is the same or larger.", "quantifier": "for all faces with finite nonnegative areas and velocities that are nonnegative or missing, both conveyance methods, all lake and skip settings, all finite thresholds and all positive lengths", "why_tests_cant": "a test compares the widths for two thresholds on one data set; that no face drops out and no later step reverses the order, for all data, takes a proof through selection, envelope, rows below the first level and repair", "anchors": ["fm2prof/cross_section.py: CrossSection._distinguish_conveyance_from_storage", "fm2prof/cross_section.py: CrossSection.build_geometry", "fm2prof/cross_section.py: CrossSection._check_increasing_order"]}
{"id": "C123", "title": "The cross-sections together hold the wet area of the 2D mesh", "statement": "At a time step in which the water level of every cross-section is higher than before, the total widths of all cross-sections times the lengths of their control volumes add up to the area of the faces of the 2D mesh that are under water, apart from lakes that are still separate.", "quantifier": "for all map files, locations with distinct names, lengths and settings, without region polygons", "why_tests_cant": "a test can compare one model; that no face is lost or counted twice between the import, the division over control volumes, the selection of time steps and the geometry is a statement about the whole chain for all models", "anchors": ["fm2prof/fm2prof_runner.py: Fm2ProfRunner._set_fm_model_data", "fm2prof/data_import.py: FmModelData.get_selection", "fm2prof/cross_section.py: CrossSection.build_geometry", "fm2prof/cross_section.py: CrossSection._compute_css_above_z0"]}
{"id": "C124", "title": "The cross-sections together hold the water of the 2D mesh", "statement": "At a time step in which the water level of every cross-section is higher than before, the 2D volumes of all cross-sections add up to the volume of water in the 2D mesh.", "quantifier": "for all map files, locations with distinct names, lengths and settings, without region polygons", "why_tests_cant": "a test compares one cross-section with its own faces; conservation over import, division, lake and depth corrections and selection of steps for every model is not something examples can show", "anchors": ["fm2prof/cross_section.py: CrossSection.build_geometry", "fm2prof/cross_section.py: CrossSection._identify_lakes", "fm2prof/fm2prof_runner.py: Fm2ProfRunner._set_fm_model_data"]}
{"id": "C125", "title": "The unit of velocity does not matter", "statement": "If all velocities of the 2D model and AbsoluteVelocityThreshold are multiplied by the same positive number, the generated cross-section is the same.", "quantifier": "for all control volumes with speeds that are missing or not negative, finite thresholds, conveyance methods and positive factors, in exact arithmetic", "why_tests_cant": "a test has velocities in metres per second only; that no comparison mixes a velocity with a fixed number holds for every model or not at all", "anchors": ["fm2prof/cross_section.py: CrossSection._distinguish_conveyance_from_storage", "fm2prof/cross_section.py: CrossSection.build_geometry"]}
{"id": "C126", "title": "The reference level and the clock of a comparison do not matter", "statement": "If the same number is added to all 1D and 2D levels and the times and the time window are moved by the same period, the same rows are compared, the bias, standard deviation, mean absolute error and the statistics of the differences stay the same, and the statistics of the levels are raised by that number; exchanging 1D and 2D changes the sign of the bias and of the final differences and keeps the standard deviation and the mean absolute error.", "quantifier": "for every pair of series without infinities, every number, every period and every window, in exact arithmetic", "why_tests_cant": "all pairs of series with different times and missing values; a wrong alignment of the two indices shows only for some of them", "anchors": ["fm2prof/utils.py: Compare1D2D._compute_statistics", "fm2prof/utils.py: Compare1D2D._apply_stat", "fm2prof/utils.py: Compare1D2D._apply_startstop_time"]}
{"id": "C127", "title": "The order of the lines in a configuration file does not matter", "statement": "Two configuration files with the same options, but with the sections and the options within a section in another order and with other comments, blanks and letter case, are read with the same outcome: the same parameters, input files and output directory, or the same exception.", "quantifier": "for all configuration files whose lines are sections, options, comments or blank lines, and all states of the configuration and of the file system", "why_tests_cant": "all orders of all files; every option is handled in a loop that changes the object", "anchors": ["fm2prof/ini_file.py: IniFile._read_inifile", "fm2prof/ini_file.py: IniFile._extract_parameters", "fm2prof/ini_file.py: IniFile._extract_input_files", "fm2prof/ini_file.py: IniFile._extract_output_dir"]}
{"id": "C128", "title": "The order of the polygons does not matter", "statement": "If all polygons that contain a point have the same label, the order of the features in the file of regions or sections does not matter: the file is accepted in every order or in none, and the model data, the cached classification and the cross-sections are the same.", "quantifier": "for all files of polygons and their permutations, all tests for a point in a polygon, all 2D models, classification methods and cross-sections", "why_tests_cant": "all orders of all files; locations take the first polygon and nodes take the last one, so that two loops have to agree", "anchors": ["fm2prof/polygon_file.py: MultiPolygon.get_points_in_polygon", "fm2prof/polygon_file.py: MultiPolygon.from_file", "fm2prof/polygon_file.py: MultiPolygon.meshkernel_inpolygon", "fm2prof/fm2prof_runner.py: Fm2ProfRunner._set_fm_model_data"]}
{"id": "C129", "title": "Other attributes of a polygon do not matter", "statement": "Two files of regions or sections whose features have the same geometry, name and label are read with the same outcome, whatever other attributes the features have and in whatever letter case the attributes are named: the same exception or the same overlap warnings, model data and cross-sections. Of an accepted polygon only its ring and its label influence the model data.", "quantifier": "for all pairs of polygon files with the same geometries, names and labels, all tests for a point in a polygon, all 2D models and cross-sections", "why_tests_cant": "all attributes that a geographic information system may add; a test has a few files", "anchors": ["fm2prof/polygon_file.py: MultiPolygon._polygons_from_geojson_data", "fm2prof/polygon_file.py: SectionPolygon._validate_sections", "fm2prof/polygon_file.py: MultiPolygon.get_points_in_polygon", "fm2prof/polygon_file.py: MultiPolygon.meshkernel_inpolygon"]}
{"id": "C130", "title": "Roughness tables follow the roughness of the links", "statement": "The roughness tables do not depend on the order in which the links are listed; if all Chezy values are multiplied by a positive number, so are the tables, also after the interpolation to common levels; larger Chezy values on the links that have one never give a smaller value in a table.", "quantifier": "for all links, sections, time steps and levels, with the simple mean as weighing method, in exact arithmetic", "why_tests_cant": "a test compares one table with expected numbers; the order of the links and the size of the values concern all tables", "anchors": ["fm2prof/cross_section.py: CrossSection._build_roughness_tables", "fm2prof/cross_section.py: CrossSection._friction_weighing_simple", "fm2prof/cross_section.py: CrossSectionHelpers.interpolate_friction_across_cross_sections"]}
{"id": "C131", "title": "The units and axes of a profile do not matter for its simplification", "statement": "If the points of a poly-line are moved by an affine map that can be undone, such as another unit or datum for levels or widths or an exchange of the axes, the simplifier keeps the same points, for a number of points, a ratio or a threshold in the new unit of area, and the reduced table of a cross-section has the same rows.", "quantifier": "for every poly-line of finite points, every affine map with a determinant that is not zero, every number, ratio and threshold, in exact arithmetic", "why_tests_cant": "a test has profiles in metres; that the choice of the points depends on ratios of areas only concerns all profiles and all maps", "anchors": ["fm2prof/lib/polysimplify.py: VWSimplifier.build_thresholds", "fm2prof/lib/polysimplify.py: VWSimplifier.from_number_index", "fm2prof/cross_section.py: CrossSection.reduce_points"]}
{"id": "C132", "title": "The split by variance depends on the spread of the values only", "statement": "If no section file is given, the division of faces and links in channel and floodplain does not depend on the order in which they are listed nor on labels they had before, and it is the same if all roughness values are raised by the same number or multiplied by the same positive number.", "quantifier": "for all lists of finite roughness values, their permutations, all numbers and factors, in exact arithmetic", "why_tests_cant": "the order of the faces and the size of the values are an accident of the test model", "anchors": ["fm2prof/fm2prof_runner.py: Fm2ProfRunner._classify_roughness_sections_by_variance"]}
{"id": "C133", "title": "The order of the lines in a branch rule file does not matter", "statement": "If every branch has at most one line in the branch rule file, the order of the lines, the order of the exceptions in a line and blanks around the names do not matter: the file is refused in every order or in none, every branch has the same rule, and the generated locations are the same or the same exception is raised.", "quantifier": "for all branch rule files with at most one line for a branch, all orders of lines and exceptions, and all network definition files", "why_tests_cant": "all orders of all files; the exceptions are removed one by one by position, so that a removal moves the others", "anchors": ["fm2prof/utils.py: GenerateCrossSectionLocationFile._parse_branch_rule_file", "fm2prof/utils.py: GenerateCrossSectionLocationFile._apply_branch_exceptions"]}
