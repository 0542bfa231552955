# Formal model of Fm2Prof in Rocq: design

## 1. What this is

`rocq/theories` holds a shallow Gallina model of Fm2Prof, written function by
function from the Python source in `/repo`, and theorems about it.  Nothing in
`/repo` is executed.  `properties.jsonl` holds the properties in English,
`MANIFEST.json` maps each to theorem names, `seeded/LOG.jsonl` records the
mutation tests.

## 2. Layout

* `PyBase.v`, `Num.v`, `Text.v`, `Fixed.v` : Python results/exceptions, numbers, strings.
* `Spec*.v` : the vocabulary used in theorem statements (strictly increasing,
  subsequence, record high, ...).  These files do not import any model file.
* `M_*.v` : the model.  Definitions only, no proofs.  Every definition carries
  a comment with the file and lines it models and the simplifications made.
* `L_*.v` : lemmas about the model.
* `T_*.v` : one theorem per property (or per clause of a property), closed with
  a lemma, followed by `Print Assumptions` and by an `Example` that shows a
  concrete non-trivial case meeting the hypotheses.

## 3. Modelling choices

* **Results and exceptions.** A Python call returns `Ok v` or `Raise e`
  (`PyBase.res`).  `try/except` is a match on the result.
* **Numbers.** numpy floats are modelled by `num := Fin q | NaN | PInf | NInf`
  with exact rational arithmetic and IEEE comparison rules (every comparison
  with NaN is false, numpy division by zero gives inf or NaN).  Rounding of
  binary64 and signed zero are abstracted.  Places where rounding can change
  the outcome are treated separately in `F_*.v` with Flocq's binary64.
  Where the code only ever sees finite values (parsed file values) plain `Q`
  is used.  The logistic function is modelled over the stdlib reals.
* **Arrays and data frames.** numpy arrays are lists; a data frame of 2D
  results is a list of rows (cells), each a list over time.
* **Strings.** Python strings are lists of ASCII characters.  `lower`, `strip`,
  `split`, `ljust`, number formatting with a fixed number of decimals and the
  configparser subset used are modelled at character level.
* **Externals as oracles.** scipy's optimiser, k-nearest-neighbour search,
  point-in-polygon tests, the JSON codec and `repr(float)` are universally
  quantified functions; theorems state exactly what is assumed of them.
* **File system.** A finite map from path to content; a write is truncation
  followed by content, so crash points are prefixes.

## 4. Statements

Theorems quantify over all inputs (lists of any length, any number of calls).
Where the code does not satisfy the property, the counterexample is a theorem
`..._refuted : exists ...` and the part that does hold is proved beside it.
Partial results carry the suffix `_partial`.
Property statements stay as first written: when the code violates one, the claim
is `partial`, even if it holds under an extra condition (which the note names).

### Files

* `F_Arange.v`: The common levels of the friction tables in binary64 arithmetic (Flocq), theorems for C20 and C89 with rounding.
* `F_Areas.v`: Areas, volumes and widths of the time steps in binary64 arithmetic (Flocq), theorems for C04, C08 and C62 with rounding.
* `F_Below.v`: The extension of the profile below the first water level in binary64 arithmetic (Flocq), theorems for C05 with rounding.
* `F_Lakes.v`: Lakes in binary64 arithmetic (Flocq), theorems for C09 with rounding.
* `F_Lengths.v`: The lengths of the cross-sections of a branch in binary64 arithmetic (Flocq), theorems for C51, C52 and C53 with rounding.
* `F_Mean.v`: The mean of Chezy values in binary64 arithmetic (Flocq), theorems for C19 with rounding.
* `F_Require.v`: The requirement check of a cross-section in binary64 arithmetic (Flocq), theorems for C01 and C02 with rounding.
* `F_Round.v`: The binary64 number nearest to a rational number (Flocq), and that it has the properties that C86 assumes of the reader of decimal numbers.
* `F_Share.v`: The share of the extra volume in binary64 arithmetic (Flocq), theorems for C15 with rounding.
* `F_Simplify.v`: The simplifier of profiles with rounding, theorems for C11, C12 and C13 (Flocq).
* `F_Stats.v`: The bias and the mean absolute error of a station in binary64 arithmetic (Flocq), theorem for C57 with rounding.
* `F_Volumes.v`: The 1D volumes of a cross-section in binary64 arithmetic (Flocq), theorem for C07 with rounding.
* `F_Widths.v`: The checks of the section widths in binary64 arithmetic (Flocq), theorems for C16 with rounding.
* `Fixed.v`: Fixed-point formatting and reading of numbers (the format specification [.nf] and [float] on plain decimal texts).
* `L_Cells.v`: Lemmas about lakes, conveyance and 2D volumes.
* `L_Export.v`: Lemmas on the texts of exported files: numbers, lines [key = value], the lines of a file written in pieces.
* `L_Fixed.v`: Lemmas about fixed-point formatting: reading back, order, error.
* `L_Ini.v`: Lemmas about the configuration model: dictionaries, writes, and the parser on printed configurations.
* `L_IniPrint.v`: Parsing a printed configuration.
* `L_Json.v`: The grammar of JSON as a specification, and the proof that [loads] of M_Json.v reads exactly the texts of this grammar.
* `L_List.v`: Generic facts on lists and Python indexing.
* `L_Network.v`: Lemmas for the branch rules.
* `L_Num.v`: Basic lemmas: numbers, lists, masks.
* `L_Profile.v`: Lemmas about the profile above and below the initial water level and the 1D volumes.
* `L_Require.v`: Lemmas about the requirement check and the monotonicity mask.
* `L_Rows.v`: A change of the maps of a 2D run (leaving maps out, repeating a map) that acts on every row of results alike, from the map file to the model data.
* `L_Same.v`: The arithmetic of Num respects equality of numbers and a change of datum.
* `L_SameGeometry.v`: The geometry of a control volume whose faces are listed in another order, or whose levels are measured from another datum.
* `L_SameReduce.v`: The requirement check and the simplifier respect a change of datum.
* `L_Simplify.v`: Proofs about the elimination loop of the simplifier.
* `L_Text.v`: Lemmas about text.
* `M_Chain.v`: From a generated cross-section to the exporter.
* `M_Classify.v`: Model of the assignment of mesh points to cross-sections (fm2prof/nearest_neighbour.py 15-74 and 101-113) and of the classification of roughness by variance (fm2prof/fm2prof_runner.py 484-532).
* `M_Cli.v`: Model of the command line (fm2prof/cli.py 22-94) as far as the configuration file is concerned, and of the mask output files (fm2prof/mask_output_file.py 32-104).
* `M_Compare.v`: Model of the comparison of 1D and 2D results (fm2prof/utils.py 1217-1553 ModelOutputReader and 1556-2484 Compare1D2D) without the figures.
* `M_Correction.v`: Model of the summer dike (volume) correction of a cross-section, cross_section.py 433-558 and 761-908, over the real numbers.
* `M_Data.v`: Model of the reading of the 2D results and of the assignment of its points to cross-sections and sections (fm2prof/data_import.py 41-72, 79-170 and 182-204, fm2prof_runner.py 380-481, polygon_file.py 444-466 and 512-532).
* `M_Envelope.v`: Model of the envelopes of the control volumes, fm2prof_runner.py 344-378.
* `M_Export.v`: Model of export.py (Export1DModelData, 45-486) and of the readers of the exported files, utils.py VisualiseOutput (547-591, 703-749, 949-954).
* `M_Figures.v`: Model of what the heat maps, the figure of a station and the figure of the discharge distribution show in the comparison of 1D and 2D results (fm2prof/utils.py 1396-1422, 1805-1898, 1900-2055, 2389-2475) without the drawing.
* `M_Friction.v`: Model of the friction tables, cross_section.py 48-120, 916-974 and common.py 349-377.
* `M_Geometry.v`: Model of the geometry part of fm2prof/cross_section.py and fm2prof/nearest_neighbour.py:get_centre_values.
* `M_Import.v`: Model of the location file reader, the transposition of its columns and the selection of the 2D data of a cross-section (fm2prof/data_import.py 206-327).
* `M_Ini.v`: Model of fm2prof/ini_file.py (IniFile) and of the configuration methods of Project (fm2prof/fm2prof_runner.py 976-1077), with the part of the standard module [configparser] that they use.
* `M_Json.v`: Model of json.dump and json.load of the Python standard library as the code uses them (fm2prof/polygon_file.py 253-270 and 360-362), and of the code that reads a polygon file from its text and keeps its cache as text (polygon_file.py 92-142, 174-223, 253-270, 345-405).
* `M_Levels.v`: Model of the interpolation of friction tables of any numbers, cross_section.py 48-120 and common.py 357-365, and of the cross-sections that the exporter sees after it (fm2prof_runner.py 323-330).
* `M_Log.v`: Model of the log: common.py TqdmLoggingHandler (27-45), ElapsedFormatter (48-157), ElapsedFileFormatter (160-175), FM2ProfBase.create_logger (203-222), set_logger_message (243-282), start_new_log_task (284-295), finish_log_task (297-304), set_logfile (314-330), and of Fm2ProfRunner._print_log_report (fm2prof_runner.py 958-961).
* `M_Longitudinal.v`: Model of the lines along a route and of the summary of the statistics in the comparison of 1D and 2D results (fm2prof/utils.py 1767-1803 statistics_to_file, 2057-2073, 2108-2163, 2233-2280 figure_longitudinal) without the drawing.
* `M_Network.v`: Model of utils.py GenerateCrossSectionLocationFile (79-416): reading the network definition and branch rule files, the branch rules, and writing the location file.
* `M_Params.v`: The parameters that the program reads from its configuration, spelled as in the source, with the type of the value the code expects there.
* `M_Pipeline.v`: Model of the way from the 2D data of one control volume to one finished cross-section (fm2prof/fm2prof_runner.py 600-721, 885-956 and fm2prof/cross_section.py 136-259, 560-584, 648-741), and of the files with the faces and the links (fm2prof_runner.py 534-563).
* `M_Polygon.v`: Model of the polygon files (fm2prof/polygon_file.py): reading and validation, classification of points, and the cache of the classification.
* `M_Reader.v`: Model of how the comparison of 1D and 2D results gets its data (fm2prof/utils.py 1150-1553 ModelOutputReader and 1594-1712 Compare1D2D.__init__, digitize_data): the netCDF files, the csv files in the output directory that are written the first time and read after that, and the time window on what was read.
* `M_Rolling.v`: Model of the pandas calls in the legacy conveyance method, cross_section.py 1240-1265 [mean_velocity_method], for the pandas and numpy of pyproject.toml (pandas >= 2.2.1, < 3).
* `M_Run.v`: Model of a run, fm2prof_runner.py: run (121-153), _run_inifile (187-215), _initialise_fm2prof (217-277), _validate_config_after_initalization (279-321), _finalise_fm2prof (323-350), _generate_cross_section_list (565-600), _get_css_range (602-609), _generate_cross_section (611-674), _create_new_cross_section (723-762), _write_output (765-883), _output_exists (963-973), and export.py OutputFiles (21-42).
* `M_Sections.v`: Model of the section widths and the floodplain base level of a cross-section, cross_section.py 976-1042 and 1446-1481.
* `M_Simplify.v`: Model of the poly-line simplifier (fm2prof/lib/polysimplify.py) and of CrossSection.reduce_points.
* `M_Style.v`: Model of the plot styles (fm2prof/utils.py 40-63, 957-1147): what PlotStyles.apply does to the settings of matplotlib and to a figure.
* `M_Visual.v`: Model of the figures of utils.py VisualiseOutput (418-954) and of the loop over them in cli.py 82-87.
* `M_VolumeFile.v`: Model of the volumes of a generated cross-section as they are exported to volumes.csv: cross_section.py 400-412 and 525-558, fm2prof_runner.py 676-709 and 931-956, export.py 121-146 (the writer itself is in M_Export).
* `Num.v`: numpy floating point values with exact rational arithmetic.
* `PyBase.v`: Python values that are common to all model files: results with exceptions, list indexing and slicing, boolean mask selection.
* `Spec.v`: Vocabulary used in theorem statements.
* `Spec_Real.v`: Vocabulary for columns of real numbers.
* `Spec_Same.v`: Specification: two sets of 2D results that describe the same river, with the faces listed in another order or the levels measured from another datum.
* `Spec_Simplify.v`: Visvalingam-Whyatt line simplification as a process, independent of the program (Visvalingam and Whyatt 1993).
* `T_Affine.v`: C131: units, origin and axes of a poly-line do not matter for its simplification.
* `T_Attributes.v`: C129: the other attributes of the polygons in a polygon file.
* `T_Balance.v`: C123: the storage widths of all cross-sections together make up the area of the 2D mesh that is under water.
* `T_Broken.v`: Theorems for C75: malformed configuration files are refused as a whole.
* `T_Cache.v`: Theorems for C37 and C38: the cache of the classification by polygons.
* `T_Cells.v`: Theorems for C08, C09, C10: 2D volumes, lakes and conveyance.
* `T_Centre.v`: Theorems for C64 (water levels at the centre of a cross-section) and the decision rule of conveyance method 0 (C10).
* `T_Chain.v`: Theorems for C86: the definition file of a run holds valid tables.
* `T_Chezy.v`: C130: the order of the links, the unit and the size of the roughness.
* `T_Cli.v`: Theorems for C59 (mask output files) and C60 (project names).
* `T_Correction.v`: Theorems for C14, C15 and C63: summer dike correction.
* `T_Data.v`: Theorems for C76, C77 and C78: what reaches the cross-sections of the 2D results in the map file.
* `T_Definitions.v`: Theorems for C39: the D-Flow 1D definition file, written and read back.
* `T_Details.v`: Further theorems for C19, C33, C41, C52, C69 and C76: details that the main theorems take from the model, in their own words.
* `T_Dry.v`: C113: faces that stay dry, and their links, do not matter.
* `T_Elsewhere.v`: C118: what happens outside the control volume of a location does not matter for its cross-section.
* `T_Ends.v`: Theorems for C65: end points of a branch.
* `T_Envelope.v`: Theorems for C85: the envelopes of the control volumes.
* `T_Errors.v`: Theorems for C92: data that do not fit are refused.
* `T_Exceptions.v`: Theorems for C52 (branch exceptions) and C65 (end points).
* `T_Figures.v`: C110 (heat maps), C111 (figure of a station) and C112 (figure of the discharge distribution) of the comparison of 1D and 2D results.
* `T_Friction.v`: Theorems for C19 and C20: friction averages and uniform friction tables.
* `T_Generate.v`: Theorems for C47 and C48: which cross-sections are generated, and the check of SkipMaps.
* `T_Geometry.v`: End-to-end characterisation of build_geometry on complete data (C61).
* `T_Handwritten.v`: Theorems for C91: configuration files as written by hand.
* `T_Import.v`: Theorems for C27, C29, C30, C31: location file, transposition, selection, missing values.
* `T_Ini.v`: Theorems about the configuration: C21 - C26.
* `T_IniPrint.v`: Theorems about printing and loading a configuration: C23.
* `T_InputFiles.v`: Theorems for C88: input files of a configuration, loaded, printed and loaded again.
* `T_Interval.v`: C103: the output interval of the 2D run.
* `T_Json.v`: Theorems for C93 (a polygon file is read as it is written), and C37 and C38 with the cache as text.
* `T_Levels.v`: Theorems for C95: the friction that belongs to a level.
* `T_Limb.v`: C101: what follows the highest water level (the falling limb of the flood wave) does not matter.
* `T_Locations.v`: Theorems for C87: the locations file and the plain geometry table, read by readers of the two formats that are written down here.
* `T_Log.v`: Theorems for C49 and C50: the log and its report.
* `T_Longitudinal.v`: C108 (differences along a route) and C109 (summary of the statistics).
* `T_Mesh.v`: C100: the resolution of the 2D mesh.
* `T_Motion.v`: Theorems for C106: the coordinate system does not matter.
* `T_Neighbour.v`: Theorems for C32 and C33: control volumes by nearest neighbour, without and with regions.
* `T_NetFile.v`: Theorems for C66 (network definition file), C67 (branch rule file) and C28 (location file written and read back).
* `T_Order.v`: Theorems for C105: the order of the locations does not matter.
* `T_Params.v`: Theorems for C90: the parameters the program reads.
* `T_Parts.v`: C119 and C120: which 2D results the parts of a cross-section depend on.
* `T_Pipeline.v`: Theorems for C80 (from the 2D data of a control volume to a valid cross-section) and C81 (the files with the faces and the links).
* `T_Polygon.v`: Theorems for C35, C36 and C68: classification by polygons, validation of polygon files, and the overlap warnings.
* `T_Profile.v`: Theorems for C04, C05, C06, C07: the columns of a cross-section profile.
* `T_Rating.v`: Theorems for C58 (rating-curve bins), C70 (extreme and final values) and C73 (discharge steps).
* `T_Reach.v`: C102: the length of the control volume cancels.
* `T_ReachDike.v`: C102: the search for the summer dike and the length of the control volume.
* `T_Reader.v`: C107: a comparison of 1D and 2D results can be repeated from the csv files that it wrote the first time (fm2prof/utils.py 1150-1553, 1594-1712).
* `T_Reorder.v`: C127: the order of the lines of a configuration file.
* `T_Repeat.v`: C116: a map that is in the file twice, as where a restart file was written, is as good as a map that is in it once.
* `T_Report.v`: Theorems for C96: what the result and the log of a run say about its output.
* `T_Require.v`: Theorems for C01, C02, C03: the requirement check of a generated cross-section and the selection of rising water levels.
* `T_Rerun.v`: Theorems for C117: a run that overwrites leaves nothing of an earlier run.
* `T_Roles.v`: C126: the reference level, the clock and the roles in a comparison.
* `T_Rolling.v`: C10 for the legacy conveyance method with the smoothing of pandas (M_Rolling.v) in place of an oracle.
* `T_RoughChain.v`: Theorems for C89: the roughness of a run in the roughness files.
* `T_Roughness.v`: Theorems for C43: the D-Flow 1D roughness file, written and read back.
* `T_Route.v`: Theorems for C55 (routes), C56 (station map), C69 (data along a route), C71 (moments in time) and C72 (station labels).
* `T_RuleOrder.v`: C133: the order of the lines and of the exceptions in a branch rule file.
* `T_Rules.v`: Theorems for C51 (branch rules) and C53 (lengths of a branch).
* `T_Run.v`: Theorems for C44, C45 and C46: files written by a run.
* `T_Same.v`: C98: the order in which the map file lists the faces does not matter.
* `T_SameDike.v`: C99: the search for the summer dike and the vertical datum.
* `T_SameRun.v`: C98 and C99: theorems and cases.
* `T_Sections.v`: Theorems for C16, C17, C18: section widths and floodplain base level.
* `T_Select.v`: Theorems for C29, C30, C31: transposition of the location columns, the selection of a control volume, and missing values.
* `T_Selection.v`: Theorems for C104: the cross-sections that are computed besides a cross-section do not matter.
* `T_Settings.v`: C121: a setting changes only the part of a cross-section that it is for.
* `T_Shuffle.v`: C128: the order of the polygons in a polygon file.
* `T_Simplify.v`: Theorems for C11, C12, C13: poly-line simplification of profiles.
* `T_Skip.v`: C114: maps that are skipped with SkipMaps are as good as maps that are not in the file.
* `T_Sobek.v`: Theorems for C40 (level columns) and C41 (SOBEK 3 geometry file).
* `T_SobekChain.v`: Theorems for C94: the SOBEK 3 geometry file of a run holds valid tables.
* `T_SobekRough.v`: Theorems for C79 (SOBEK 3 roughness file), and the names of the columns of the volume table (C42).
* `T_Speed.v`: C125: the unit of the velocities does not matter.
* `T_Split.v`: C132: order, origin and unit of the values that are split by variance.
* `T_Start.v`: Theorems for C74 (starting point of the summer dike search) and C63 (joint fit of method 2).
* `T_Stats.v`: Theorems for C57 (error statistics), C58 (rating-curve bins), C70 (extreme and final values) and C73 (discharge steps).
* `T_Style.v`: C115: a plot style changes the look of a figure and not what it shows.
* `T_Switches.v`: Theorems for C22: which text of a configuration file switches a parameter on.
* `T_Threshold.v`: C122: lower velocity thresholds do not reduce the conveyance.
* `T_Variance.v`: Theorems for C34: classification of roughness by variance.
* `T_Velocity.v`: C120: the search for the summer dike and the conveying volumes.
* `T_Visual.v`: Theorems for C82 (what a figure shows), C83 (a figure for every cross-section) and C84 (the cross-sections of a branch).
* `T_VolumeFile.v`: Theorems for C97: the volumes file of a run.
* `T_Volumes.v`: Theorems for C42: the volume table, written and read back.
* `T_Water.v`: C124: the volumes of all cross-sections together are the water of the 2D mesh.
* `T_Whole.v`: Theorems for C80 and C81 on the whole way from the map file to the cross-sections.
* `T_Window.v`: Theorems for C54: the time window of the comparison.
* `Text.v`: Python text (ASCII only) as lists of characters, with the string methods used by the modelled code.

## 5. Per property: modelled code, method, theorems, assumptions

`Status` is that of MANIFEST.json.  Every theorem also assumes that the model
file describes the code (section 6).

| id | property | modelled code | how it is proved | theorems in | status | assumptions and limits |
|---|---|---|---|---|---|---|
| C01 | Generated cross-section tables are valid 1D input | check_requirements and its helpers, list by list | refinement to a prefix recurrence, induction over the list; min of two strictly increasing lists | `F_Require.v`, `T_Require.v` | proved | If all total widths are zero the check raises IndexError and gives no table (C01_all_zero_widths_raise). Also in binary64 with rounding, for numbers up to 2^42 in size (F_Require.v, Flocq). |
| C02 | The requirement check changes a table as little as possible | _check_increasing_order as an in-place left-to-right sweep | induction over the list with the repaired predecessor as state | `F_Require.v`, `T_Require.v` | proved | In binary64 (numbers up to 2^42) a repaired row is at most 2^-8 per step above an original value; C02_large_numbers_case shows that the repair fails from 2^45 on. |
| C03 | Water levels used for a cross-section are exactly the record highs | _check_monotonicity (method 1), also with missing levels | loop invariant with the last kept value; order-preserving maps and prefixes by induction | `T_Require.v` | proved | none beyond section 6 |
| C04 | Flow width above the initial water level is the largest non-decreasing lower envelope | _compute_css_above_z0 | induction from the tail; optimality against any competitor list | `F_Areas.v`, `T_Geometry.v`, `T_Profile.v` | proved | exact rational arithmetic With rounding the same holds of the computed widths, and they are at most the computed total widths (C04_flow_width_in_binary64). |
| C05 | Extension of the profile below the initial water level | _extend_css_below_z0 over all cells, exact and in binary64 | subset-sum monotonicity, induction over the ten-step fold (generic step list); monotone rounding and a relative error bound for any order of additions | `F_Below.v`, `T_Profile.v` | proved |  Exact arithmetic in C05_extension_below_initial_level; the binary64 theorems (F_Below.v) state the same with rounding, for any order in which numpy adds n values. With rounding the widths are ordered if the areas are at most 2^34 times as large together as the smallest one; C05_tiny_cell_in_binary64_refuted shows that a cell of 2^-64 square metre can break the order by a unit in the last place. |
| C06 | All profile columns stay aligned | build_geometry as a whole (matrices as lists of rows) | length invariants through every stage | `T_Profile.v` | proved | alignment holds for every input on which the geometry is built; it is built whenever the lake step lies inside the remaining time steps, and aborts with IndexError otherwise |
| C07 | 1D volumes are cumulative and consistent | cumulative trapezoid in build_geometry | induction over rows | `F_Volumes.v`, `T_Profile.v` | proved | Also with binary64 rounding (C07_volumes_in_binary64): the volumes start at 0, never decrease and the flow volume never exceeds the total volume, as long as nothing overflows. |
| C08 | 2D volumes are non-negative and additive over cells | volume sums and deep-pool correction in build_geometry | additivity proved; non-negativity refuted (deep pool that dries) -> _refuted plus the guarded positive version | `F_Areas.v`, `T_Cells.v` | partial | sum formula proved; non-negativity is false of the code (a pool deeper than the centre that dries), proved when no counted face loses more than the initial centre depth Monotonicity also holds exactly with rounding, for every order of summation (C08_volumes_in_binary64). |
| C09 | Lake cells: detection and activation over time | _identify_lakes, exact, with missing depths and in binary64 | induction over the time steps with the mask as state; monotone rounding with an error bound at the threshold | `F_Lakes.v`, `T_Cells.v` | partial | Violated in one respect: an activated lake is left out again while it is dry (C09_dried_lake_refuted); C09_lake_detection_and_activation gives the exact rule. Exact arithmetic in C09_lake_detection_and_activation; the binary64 theorems (F_Lakes.v) meet the thresholds up to 2^-57 metre. C09_unknown_depths extends the rule to series with missing depths: one missing depth ends the rest of a lake. |
| C10 | Separation of conveyance and storage | _distinguish_conveyance_from_storage (max method, dispatch; mean method with the smoothing as an oracle) | decision rule, antitonicity, fastest-cell argument | `T_Cells.v`, `T_Centre.v`, `T_Rolling.v` | proved | for numeric velocities; with missing velocities the three highest are polluted by the missing ones (refuted edge); the rolling mean of method 0 is an oracle Method 0 with the rolling mean of pandas (M_Rolling.v) in place of an oracle: the smoothed velocity is the mean of the known velocities of ten neighbouring faces, and the rule is closed (C10_mean_method_closed_rule). |
| C11 | Simplification keeps a valid sub-profile of at most n points | reduce_points + VWSimplifier.from_number_index | counting argument on sorted thresholds, boolean mask selection lemmas | `F_Simplify.v`, `T_Simplify.v` | proved | Finite columns; with a limit of 0 or 1 points the profile is emptied (separate theorem). The reduction is also proved for any ordered numbers with finite areas and for binary64 with every operation of the areas rounded (levels and widths up to 2^500), alone and after the requirement check. |
| C12 | The simplifier performs the Visvalingam-Whyatt elimination | polysimplify.build_thresholds with shifted arrays, index list, skip logic | simulation: loop state represents a state of the nondeterministic textbook elimination | `F_Simplify.v`, `T_Simplify.v` | proved | Exact rational areas. F_Simplify.v restates the simplifier for any kind of numbers; for exact numbers it is the same code. |
| C13 | Simplified profiles are nested | from_number, from_number_index, from_threshold, from_ratio | thresholds are order statistics | `F_Simplify.v`, `T_Simplify.v` | proved |  The same holds for every rounding of the areas and in binary64. |
| C14 | Summer dike correction never yields negative or inconsistent extra volume | _optimize_sd_storage with an arbitrary optimiser; calculate_correction | clamp algebra; optimiser quantified over | `T_Correction.v` | proved | Over the reals, for every optimiser. |
| C15 | The summer dike transition is a proper smooth step | _get_extra_total_area over the reals | real analysis of the logistic (stdlib Reals axioms) | `F_Share.v`, `T_Correction.v` | partial | All parts are proved over the real numbers (C15_transition_is_a_smooth_step). With rounding the share lies between 0 and 1 and never decreases (C15_share_in_binary64), but it is not strictly below 1 nor strictly increasing: with the default transition height it is exactly 1 from about 1.9 m above the crest (C15_strict_share_in_binary64_refuted), and exactly 0 where the power overflows. |
| C16 | Section widths add up | _check_section_widths_* | case analysis with floor; negativity refuted by witness | `F_Widths.v`, `T_Sections.v` | partial | Everything is proved except non-negativity of floodplain 1, which the code violates (refuted with a witness); a sufficient condition for it is proved. In binary64 both bounds hold up to 2^-26 for widths up to 2^20 (C16_section_widths_in_binary64), but not exactly (C16_widths_in_binary64_refuted: widths 8.7 and 2.4 with flow width 443.1 add up to 443.09999999999997, and a main channel that is set to 17.6 + 0.1 need not be at least 0.1 wider). |
| C17 | Section widths follow the section classification of the cells | _compute_section_widths against the labels produced by the two classifiers | refuted for polygon labels (strings never equal 1,2,3), proved for variance labels | `T_Pipeline.v`, `T_Sections.v` | partial | Proved for the integer labels of the variance classifier; refuted for polygon labels, which are names and never match 1, 2, 3. The property nonalluvial_width of a cross-section is 0 always. |
| C18 | Floodplain base level stays below the dike crest | _compute_floodplain_base | case analysis | `T_Sections.v` | proved | For known bed levels; if all floodplain bed levels are missing the base is NaN. |
| C19 | Friction averages ignore missing values and stay within range | _friction_weighing_simple, _friction_weighing_area | mean bounds by induction; area variant refuted when one link is dry, proved when none is | `F_Mean.v`, `T_Details.v`, `T_Friction.v` | partial | Simple mean proved in full. The area weighted variant always raises on imported data and gives 0 when one link is dry (refuted); without dry links it is the weighted mean. In binary64 the mean of n values lies between the smallest times 1 - n 2^-53 and the largest times 1 + n 2^-52 for every order of summation (C19_mean_in_binary64), but not always between the smallest and largest (C19_range_in_binary64_refuted: three values of 51.2 average to 51.20000000000001). Levels and friction values of different numbers are refused with ValueError (C19_number_of_levels). |
| C20 | Friction tables are uniform over the model after finalisation | interpolate_friction_across_cross_sections, FrictionTable.interpolate, np.interp, np.arange | fold invariants over cross-sections; interp range lemma | `F_Arange.v`, `T_Friction.v` | proved | For every search that brackets. If all levels of a section are equal the common level column is empty (np.arange excludes the stop level). With binary64 rounding the levels are 0.1 apart up to a millionth for levels up to 1024 m (C20_levels_in_binary64). |
| C21 | Reading back a parameter gives the last value set | IniFile get/set on the template dictionary | history theorem by induction over the call list; debug keys refuted | `T_Ini.v` | partial | Holds for every history of IniFile calls. Refuted for Project.set_parameter on debug parameters: it writes only section parameters while get_parameter also reads debug. |
| C22 | Unknown configuration names are harmless | _extract_parameters, set/get | frame lemmas | `T_Ini.v`, `T_Switches.v` | proved | Setting in an unknown section raises KeyError (not covered by the statement). Every text converts to a switch: on exactly for the word true, so yes, on and 1 switch off and do not keep the default. |
| C23 | A printed configuration loads back to the same parameters | print_configuration and the configparser subset used by _get_inifile_params at text level | codec round trip by induction over strings and lists | `T_IniPrint.v` | partial | Proved for every configuration of the template's shape whose values contain no percent sign (and floats whose printed form reads back); a percent sign makes the printed file unreadable. Parser of the standard library is modelled, %(name)s references are not. |
| C24 | Loading a configuration file twice is the same as loading it once | load_configuration_from_file | idempotence | `T_Ini.v` | proved | none beyond section 6 |
| C25 | Broken configuration files are reported as configuration errors | Project.__init__ with load_configuration | case analysis of every error on the way; counterexample | `T_Ini.v` | partial | The code violates the property: a missing [input] or [output] section leaves the constructor as AttributeError. C25_internal_error_partial is what holds: a parsable file lacking one of the sections is never used, and a missing section is the only way to the AttributeError. |
| C26 | The output directory is created where output is written | set_output_directory/get_output_directory with a path model and a set of existing directories | refuted when the configuration is not in the working directory; proved when it is | `T_Ini.v` | partial | True when the configuration file lies in the working directory or the value is absolute, and for the directory of a freshly opened project; otherwise the created directory differs from the used one. |
| C27 | Cross-section location file is read completely and in order | css_file line by line at text level | induction over lines; legacy header refuted | `T_Import.v` | partial | Every data line yields one entry in file order, only a non-numeric first line is skipped and later non-numeric lines raise, for all files of six- and five-column lines. Not proved in full because it is false for a five-column file with a header: the header line raises ValueError (witness proved). |
| C28 | Location files written by the generator can be read back | _write_cross_section_location_file then css_file | codec round trip, decimal formatting model | `T_NetFile.v` | partial | For ids and branch names without comma and line end, and branch names without outer blanks (as the generator reads them). Refuted for a branch name with a comma, which the generator writes as it is: the file it writes is refused with a ValueError. float(text) is an oracle that reads a plain decimal text as the correctly rounded value of that decimal, ignores a line end and rejects the text x. |
| C29 | Column-wise location data is transposed without loss | get_ordered_css_list | transposition lemma; ragged columns refuted | `T_Select.v` | proved | Proved for columns of equal length. The third theorem shows that the restriction is needed: with ragged columns values shift to the wrong name. |
| C30 | The data selected for a cross-section is exactly its control volume | get_selection | mask selection lemmas; purity | `T_Select.v` | proved | Model data is a value in the model, so selections cannot change it; pandas boolean indexing copies. |
| C31 | Missing 2D values are never used as data | get_selection + get_timeseries | proved for depth and level, refuted for velocity (magnitude taken before the no-data test) | `T_Select.v` | partial | Depths and levels equal to the no-data value are missing in the geometry. Velocity components equal to the no-data value are squared and used as data (witness proved). |
| C32 | Nearest-neighbour control volumes partition the mesh | classify_without_regions with any nearest classifier | partition and area sum by induction over cross-sections | `T_Neighbour.v` | proved | Assumes that the k=1 search of sklearn returns a sample such that none is nearer (is_nearest; C32_first_nearest_is_nearest shows it can be met). Exact coordinates. Without cross-sections, faces or links sklearn raises ValueError. With duplicate ids the area counts double (witness). |
| C33 | Regions confine control volumes | classify_with_regions | loop invariant over regions | `T_Data.v`, `T_Details.v`, `T_Neighbour.v` | partial | Holds if no region has the name of a cross-section, ids are not empty and at most 99 characters, and a region with faces and cross-sections also has links. Refuted otherwise: faces of a region without cross-sections go to a cross-section elsewhere that has the region's name as id; a region with a face and a cross-section but no link stops the run with ValueError; long ids lose their links. classify_with_regions_spec gives every class exactly. C33_run_keeps_to_the_regions_partial carries the confinement through the whole run, from map file to selection. |
| C34 | Variance classification is an optimal threshold split | _classify_roughness_sections_by_variance | argmin specification, threshold classifier | `T_Data.v`, `T_Variance.v` | proved | Labels are 1 (main channel) and 2 (floodplain). Exact arithmetic, finite values; a missing first value raises ValueError, a later missing value keeps its old label (example). |
| C35 | Polygon classification is total and consistent | get_points_in_polygon, meshkernel_inpolygon with an arbitrary containment relation | fold lemmas; overlap refuted | `T_Polygon.v` | partial | Locations and nodes get the label of a polygon that contains them or the default, and agree where polygons do not overlap and shapely and MeshKernel agree. Refuted for faces and links: they take the label of their first node, also when their centre is in another polygon. A region polygon without the property region gives the label None. |
| C36 | Invalid polygon files are rejected | from_file checks, polygons setter, SectionPolygon validation | decision procedure soundness; multi-part and capitalised section refuted | `T_Polygon.v` | partial | C36_accepted_files gives the exact condition for acceptance. Refuted: a multi-part geometry whose first part has one ring is accepted and cut to its first part, a one-part MultiPolygon with holes loses its holes, and labels such as Main are kept with their capitals. |
| C37 | The in-polygon cache never changes results | cache as a state machine (2D file, polygon file, cache file) | invariant over histories; polygon change refuted | `T_Cache.v`, `T_Json.v` | partial | Holds for every history in which calls with the same cache file and the same time and size of the 2D file would compute the same labels. Refuted: a changed polygon file or default label is not noticed. |
| C38 | The cache survives interruption | cache write as a sequence of prefixes | refuted (truncated JSON) | `T_Cache.v`, `T_Json.v` | partial | Refuted: after an interruption while the cache file is written every later run fails with JSONDecodeError until the file is deleted (the runner never forces). Interruptions before and after the write are harmless. The cache is also modelled as text: that json.load fails on every cut-off file is proved. |
| C39 | D-Flow 1D cross-section definitions round trip | _write_geometry_fm1d then parse_cross_section_definition_file at text level | codec round trip | `T_Definitions.v` | partial | Violated in two ways: the blanks around a name are lost, so that the cross-section is not found under its name, and the width of the third section is written but not read back. Everything else of every file comes back (C39_definition_file_of_any_names). float printing and reading are quantified oracles constrained by the float_codec record; decimal_codec shows the record is inhabited. Found: a cross-section without a width for a section leaves a truncated file. |
| C40 | Exported level columns are ordered | number formatting with 4 / 8 decimals, round half to even | order lemmas on rounding; tie collapse refuted for 4 decimals | `T_Sobek.v` | partial | The SOBEK half is proved as stated. D-Flow 1D: printed levels never decrease, and are strict when the gap is more than 0.0001; for a gap of exactly 0.0001 the claim is false (C40_dflow_levels_collapse: two levels half-way between printed values round to the same text). |
| C41 | SOBEK 3 export writes complete and correct dike data | _write_geometry_sobek3 as rows | shape by induction; flow area column refuted | `T_Details.v`, `T_Sobek.v` | partial | Row layout and level/width columns proved. The flow area column repeats the total area (refuted with a witness), and meta rows have 24 fields under a 20 field header. |
| C42 | Volume table round trip | export_volumes then get_volume_info_for_css | filter/concat lemma | `T_SobekRough.v`, `T_Volumes.v` | partial | Proved for every name other than id; for the name id the reader takes the header for a row and raises ValueError (C42_name_id_refuted). |
| C43 | Roughness files are complete and readable | _write_roughness_fm1d then get_roughness_info_for_css | codec round trip; upper-case branch refuted | `T_Roughness.v` | partial | Structure and round trip proved for branches with lower-case names; a cross-section on a branch with a capital in its name is never found by the reader (C43_capital_branch_refuted). |
| C44 | A run without overwrite never touches existing results | run, _output_exists over a file system map | state machine | `T_Run.v` | partial | Proved for the ten result files and every other file except fm2prof.log, which lies in the output directory and gets a line (C44_log_file_refuted). Map output (face_output.geojson etc.) is not looked at by the check and is replaced (C44_map_output_refuted). |
| C45 | Output writing is confined and failures are isolated | _write_output with failing exporters as oracle | case analysis over failure points; frame | `T_Run.v` | proved | Files written outside _write_output (map output, bounding boxes, pickles, cache) are listed by C45_run_is_confined. Found: on overwrite a roughness file of a section that is no longer used keeps its old contents (C45_stale_roughness_survives). |
| C46 | An interrupted run is noticed | run as a list of atomic writes, all prefixes | crash-point theorem | `T_Run.v` | proved | An interrupted run is a prefix of its file actions; the next run changes nothing but its log file. |
| C47 | Exactly the sufficiently covered cross-sections are generated | _generate_cross_section_list, _get_css_range, _generate_cross_section | fold = filter/map | `T_Generate.v` | partial | Exactly the selected rows with ten or more faces are generated, in the order of CssSelection; that is file order for an increasing selection and without one, not in general (C47_file_order_refuted). An entry beyond the list or a failing row stops the run. |
| C48 | Too large SkipMaps is detected | _validate_config | decision rule | `T_Generate.v` | partial | Decision rule proved for all values; a negative SkipMaps counts from the end and can skip nearly all steps without a warning (C48_negative_value_refuted). |
| C49 | Log report counts | ElapsedFormatter as a state machine | history theorem by induction | `T_Log.v` | partial | Counts, headers and footers on the console proved for a process with one project; the log file gets no footer lines at all (C49_file_footers_refuted), because finish_log_task only tells the console formatter. |
| C50 | Independent projects have independent logs | create_logger/handlers as global state | refuted by a history | `T_Log.v` | partial | False: all projects share one logger. After a second project is created every report shows no warnings, and messages go to both log files. Proved fragment: no message is lost from the first log file. |
| C51 | Branch rules conserve length | _apply_branch_rules | list sum lemmas; three points with ignoreedges refuted | `F_Lengths.v`, `T_Rules.v` | proved | All rules for four or more points; for two or three points the rule conserves or raises. C51_single_point_refuted shows the one-point case outside the quantifier, where onlyedges duplicates the point. In binary64 the total is kept up to n + 1 units of 2^-52. |
| C52 | Branch exceptions conserve length | _apply_branch_exceptions | descending removal invariant; duplicates refuted | `F_Lengths.v`, `T_Details.v`, `T_Exceptions.v` | partial | Proved for distinct known exceptions that leave at least one point. False for an exception listed twice (witness proved: its neighbour is removed too); unknown names raise ValueError. In binary64 the total is kept up to 2m units of 2^-52 for m exceptions. |
| C53 | Generated lengths partition the branch | length part of _parse_network_definition_file | telescoping induction | `F_Lengths.v`, `T_Rules.v` | proved | Exact rational arithmetic. In binary64 the lengths are not negative and add up to the branch length up to 3 units of 2^-52 (n + 4 + 2m units after a rule and m exceptions); the exact sum can differ (case). |
| C54 | Time window of the 1D-2D comparison | _apply_startstop_time, setters | decision rule over sorted axes | `T_Window.v` | partial | Full characterisation of one access and of a series of accesses. Refuted: the limits of the first accessed table are kept for the others (records lost or ValueError, depending on the order), one record or a start at the last record is refused, a start before the data is no error. |
| C55 | Route stations are ordered by river kilometre | get_route | sorting lemma | `T_Route.v` | partial | For any argsort that gives a sorting permutation with NaN last. Refuted: a branch that occurs twice gives its stations twice; a name with the text nan counts as having a river kilometre; LMW stations without one are kept. |
| C56 | 1D-2D station matching | _get_1d2d_map | find lemma | `T_Route.v` | partial | Proved for 1D names of at least nine characters, up to the imported data columns. Shorter names are matched with stations that only start with them (refuted). |
| C57 | Error statistics are consistent | _compute_statistics | triangle inequality by induction | `F_Stats.v`, `T_Stats.v` | partial | For series without infinities and with a common time; without one the statistics are missing instead of zero (refuted). With rounding the three relations hold exactly as well, for every order of summation (C57_bias_and_error_in_binary64), where zero errors are told from non-zero errors above 2^-1000. |
| C58 | Rating-curve bins | _digitize_data, np.digitize | counting lemma | `T_Rating.v` | proved | The label of a bin is its upper edge; the first bin has no lower edge; discharges of 17800 and more are in no bin. |
| C59 | Mask output files round trip | mask_output_file.py over a file system map with an abstract JSON codec | case analysis | `T_Cli.v` | proved | Writing and reading with the geojson coordinate rounding as an idempotent function; the names, extensions and empty inputs that are refused leave the directory unchanged. |
| C60 | Command line project names | cli.py name handling, Path.with_suffix at text level | refuted for dotted names; proved otherwise | `T_Cli.v` | partial | The created file is the one looked for exactly if the last component of the name has no suffix; then every default parameter is read back. For v1.2, case.ini or a trailing slash another file is looked for and the default configuration is silently used if it does not exist (refuted). |
| C61 | Every profile row above the initial level describes one time step | build_geometry on complete data | composition of the stage characterisations into one closed form | `T_Geometry.v` | proved |  C61_rows_for_every_method covers every conveyance method, with the mask of C10 in the place of the rule; the other two theorems spell out the rule of the default method. |
| C62 | Conveying area is part of the wetted area | _identify_lakes and the conveyance split | monotone masks; counterexample by computation | `F_Areas.v`, `T_Geometry.v` | partial | false of the code when a resting lake has a velocity above the threshold; proved when resting lakes have zero velocity If the flow cells are wet cells the relation holds exactly with rounding too (C62_areas_in_binary64). |
| C63 | The volume correction fits the 2D volumes | _optimize_sd_storage with an exact optimiser | algebra over the reals; counterexample | `T_Correction.v`, `T_Start.v` | partial | The flow stage of the fit compares with the 2D total volume, so the flow part of the property is false of the code (refuted with a witness); the total volume part is proved for an exact optimiser that returns a non-negative volume. |
| C64 | Centre water levels have no gaps | _get_closest_cell / centre levels | argmin specification | `T_Centre.v` | proved | water depths of the cell are numbers; exact arithmetic |
| C65 | Branch end points move one metre inward | end points of generated branches | interpolation lemma with a bracketing search oracle | `T_Ends.v` | partial | Proved for three or more points. False for two points, where the last point is interpolated from the moved first point. numpy's interval search is an oracle with a bracketing property. |
| C66 | Every branch of a network definition is read on its own | _parse_network_definition_file as a line state machine | fold over lines; counterexample | `T_NetFile.v` | partial | Proved for blocks that hold all four grid point lines. A block that lacks some of them silently uses the values of the block before it (witness proved). |
| C67 | Branch rule files are read completely | _parse_branch_rule_file | fold over lines | `T_NetFile.v` | partial | Every file: it is refused (IndexError) just when a line with more than one character has no comma, and else a branch has the rule and the exceptions, without blanks, of the last line that names it. Refuted for a branch that is named twice, of which the first line is lost without a message, and for a line of blanks, which is not passed over but refused. |
| C68 | Overlapping polygons are reported, not rejected | check_overlap with an arbitrary intersection relation | list comprehension lemmas | `T_Polygon.v` | proved | The intersection test of shapely is an arbitrary relation. |
| C69 | Data along a route has a row for every station | get_data_along_route, drop_duplicates | induction over rows with the set of seen rows | `T_Details.v`, `T_Route.v` | partial | Stations with equal values are dropped, whatever their river kilometre (refuted); one row per station if no two have the same values. |
| C70 | Extreme and final statistics are ordered | _apply_stat (nlargest, last rows) | rearrangement: sum of any k values is at most that of the k largest | `F_Stats.v`, `T_Rating.v` | partial | Order of the maxima proved; the comparison with the last values needs that none of these is missing (refuted otherwise). With rounding the order does not hold exactly (C70_max3_in_binary64_refuted: a constant level of 51.2 has max3 51.20000000000001). |
| C71 | Moments of the longitudinal plot lie in the data period | _time_func, _get_nearest_time | division bounds; first-index lemma | `T_Route.v` | partial | From six days on there are 6 to 11 moments within the period; a shorter period raises ValueError (refuted). |
| C72 | Station labels do not overlap | _lmw_func | induction with the previous label as state | `T_Route.v` | partial | For numeric locations from -9994 on; a station without a number switches the spacing off (refuted). |
| C73 | Discharge steps of the rating curves | _iter_discharge_steps | loop invariant; bounds of the targets | `T_Rating.v` | proved | Levels without infinities; a station without any level raises ValueError. |
| C74 | The dike search starts at the largest shortage | calculate_correction with an optimiser that does not move | specification of nanargmin by induction | `T_Start.v` | proved | Real arithmetic. Stated as what a search that does not move returns. Method 1 starts the flow volume from the mismatch of the total volume and the total volume from that of the flow volume, as the theorem says. |
| C75 | Malformed configuration files are refused as a whole | configparser subset: parse_line as a state machine | invariants over the lines: error flag, known sections and options, current section | `T_Broken.v` | proved | For the modelled subset of configparser; lines that start in the first column; a repeated option has no section header between its two lines. |
| C76 | Map file data reaches the cross-sections unchanged | import_dflow2d, _set_fm_model_data, get_selection | shape invariant over the tables, composed with C30 | `T_Data.v`, `T_Details.v` | proved | Reading is modelled from the variables of the file on (xarray is trusted to return them). Cached labels of a length other than that of the mesh are not checked by the code for links; the hypothesis fits excludes them. Region labels are compared as text. |
| C77 | Control volumes of a run cover the mesh exactly once | as C76 | composition of C32 and C76 | `T_Data.v` | proved | Through _set_fm_model_data and get_selection; nearest neighbour search as in C32. |
| C78 | Roughness comes from internal links only, in every file version | import_dflow2d for the links | case analysis on the variables present, filter of the edge types | `T_Data.v` | proved | Dimensions of the variables as in the file format (dims). |
| C79 | SOBEK 3 roughness table is complete | _write_roughness_sobek3 | refinement: split lines of the file equal the rows by column name | `T_SobekRough.v` | partial | Violated for a branch name with a comma, which shifts the columns of its rows; proved for branch names without comma or newline. str(float) gives a number text (oracle). |
| C80 | From the 2D results of a control volume to a valid cross-section | generate_cross_section from the map file on, with build_geometry, check_requirements, reduce_points, friction tables, widths and base | composition of C76, C61, C64, C01, C11, C19, C16, C17 and C18; a dry volume as a refutation | `T_Levels.v`, `T_Pipeline.v`, `T_Whole.v` | partial | Proved for control volumes in which a face of positive area holds moving water at a retained time step; refuted for a control volume that stays dry or holds a lake at rest (the program stops with IndexError) and for the area weighing of the friction (AttributeError). Exact arithmetic; the search for the summer dike is an oracle with a finite crest level. With a centre face that is always dry a cross-section is generated whose levels are all NaN (C80_dry_centre_refuted). With six points in a profile such a cross-section stops the run with IndexError. |
| C81 | The files with faces and links are complete | face_output_list, edge_output_list, generate_geojson_output | refinement: the list of points equals a map over the faces; the flag for lakes as a refutation | `T_Pipeline.v`, `T_Whole.v` | partial | Everything but the lake flag is proved; is_lake is False for every face, also for the lakes that are detected (refuted). |
| C82 | A figure shows the exported data | plot_geometry, plot_volume, plot_roughness, draw over the parsed files of C39, C42, C43 | refinement: composition with the round trips of the exported files, for each label the column it shows; the mislabelled area as a refutation | `T_Visual.v` | partial | Everything is shown as exported except the area labelled '1D Flow Volume (incl. SD)', which for every cross-section shows the flow volume without the summer dike. Assumes exported numbers that stay finite when printed with four decimals; colours and axis titles are not modelled. |
| C83 | Every cross-section of a run gets its figure | figure_cross_section, figure_loop, plot_cross_sections | invariant of the loop over the figure directory; refutations for old figures and for the call that draws all | `T_Visual.v` | partial | Every cross-section without a figure gets one and failures are isolated and reported. Refuted: figures of an earlier run are kept whatever the new results are, the method that draws all figures raises TypeError on the first one, and a visualiser without a logger raises AttributeError. |
| C84 | Cross-sections and roughness along a branch | split_css, known_branch, chain_branches, cross_sections_for_branch, roughness_longitudinal | induction over the names for one branch; refutation for two | `T_Visual.v` | partial | Holds when all cross-sections lie on one branch. As soon as there are two branches every request raises ValueError; behind that test the running chainage over sub-branches is as stated, but a sub-branch whose name begins with that of another is listed under both. |
| C85 | Envelopes of the control volumes | make_envelope, envelopes, export_envelopes; the hull routine as an oracle specified by half planes | induction over the cross-sections; refutations for faces on one line and for open rings | `T_Envelope.v` | partial | If the hull routine succeeds for every cross-section there is one enclosing polygon each, with the right name. Refuted: one cross-section without a hull (for instance all faces on one line) loses the file for all, because only IndexError is caught; no ring that is written is closed. The hull routine is an oracle with a stated specification. |
| C86 | The definition file of a run holds valid tables | as_exported, definition_file on top of M_Pipeline and M_Export; binary64 rounding of rationals | composition of C80 with the round trip of C39 and the monotone rounding of decimals; error bound by Flocq; refutation by a computed run | `F_Round.v`, `T_Chain.v` | partial | Everything but strictness is proved for every generated list; levels and widths are strictly increasing in the file where they are more than 0.0002 apart. Refuted: two levels of a generated cross-section 0.00001 apart are equal in the file. That the nearest binary64 number is precise enough is proved with Flocq. |
| C87 | The locations file places every cross-section | write_css_locations and write_geometry_test of M_Export; a reader of ini blocks and a reader of comma separated rows as the specification | the written file is a list of lines without line feeds; each line is read on its own; composition with C39 for the references | `T_Locations.v` | proved | Readers of the ini format and of the table are part of the specification. Also shown: the plain roughness table that is written next to the geometry table gets no further than its header, because the attribute that it reads does not exist. |
| C88 | Input files are found from the configuration file | extract_input_files, print_configuration and load_configuration of M_Ini with its paths and file system | the input section is a batch of writes with distinct keys; round trip of paths through their text; refutation by a computed example | `T_InputFiles.v` | partial | Loading is proved as stated. Printing and loading again gives the same files if the configuration file is named by an absolute path or by its bare name; refuted for a relative path with a directory, which is put in front of the printed paths once more, so that the files are not found and the defaults are used. |
| C89 | The roughness of a run reaches the roughness files | finalised of M_Chain: interpolate_friction of M_Friction followed by the roughness file of M_Export, read by get_roughness_info | the interpolation gives every table of a section the same level column; the value read is the piecewise linear function of the own table; composition with C43 | `F_Arange.v`, `T_Levels.v`, `T_RoughChain.v` | partial | Composition of the interpolation over the run (C20) and the roughness file (C43). No two cross-sections share branch and chainage, branch names are in lower case and names end in the chainage, as in C43. The highest level itself is never in the file, and a section with a single level in the run gets an empty table (C89_levels_of_the_file). Proved in exact arithmetic. With binary64 rounding the last level can lie above the highest one: levels from 1.0 to 1.3 give a last level of 1.3000000000000003 (C89_highest_level_in_binary64_refuted); by how much is bounded in C20_levels_in_binary64. Between its levels the table is linear only if they increase; for a falling flood see C95_falling_flood_refuted. |
| C90 | Every configuration parameter is known, typed and used | M_Params: the parameters the program reads, spelled as in the source, with the types expected; template, get_parameter, project_init of M_Ini | C22 gives the value after loading, the cast gives its type; the template is compared with the list by computation; the names that are not read are written without influence on what is read | `T_Params.v` | partial | Refuted in part: CaseName, MinimumDepthThreshold and BedlevelCriterium are in the template, with a description of their effect, but nothing in the program reads them (C90_unread_parameters_refuted: setting them changes nothing the program looks at, and all others are read). The rest of the property is proved: known names, types after loading any file, defaults under any capitalisation. |
| C91 | A configuration file written by hand is read as it is meant | parse_ini, with_defaults, read_options, get_inifile_params and load_configuration of M_Ini | a document of headings, options and notes is rendered; the parser state is followed line by line, keeping that the option at hand is the last one of its section; composition with the loading of parameters (C22) | `T_Handwritten.v` | partial | Proved for lines that do not start with a blank and remarks without a per cent sign. A blank at the start of an option line makes it part of the value before, so that both parameters keep their defaults without a message (C91_indented_line_refuted). A per cent sign in a remark makes the file unreadable (C91_percent_in_remark_refuted). References of the form %(name)s are outside the model. |
| C92 | Data that do not fit are refused | the operations on lists, columns, numbers and names of M_Data, M_Network, M_Visual, M_Friction, M_Classify, M_Compare, M_Simplify, M_Polygon and M_Ini | case distinction on the condition of each operation | `T_Errors.v` | proved | Kinds of errors of numpy, pandas, scikit-learn and MeshKernel are assumptions of the model. |
| C93 | A polygon file is read as it is written | M_Json (json.dump and json.load character by character, from_file on the text) | JSON grammar as a specification; soundness and completeness of the reader by mutual induction; simulation between the text model and the feature model of M_Polygon | `T_Json.v` | proved | json.load is modelled character by character and proved to read exactly the JSON grammar of L_Json.v. C93_accepted_files says for any document which features are accepted. Characters above 255 only as escapes; the decoding of the bytes of the file, RecursionError and the limit on digits of int() are not modelled. |
| C94 | The SOBEK 3 geometry file of a run holds valid tables | sobek_file of M_Chain over the SOBEK 3 rows of M_Export; a reader that takes a meta row and the rows up to the next one | rows of the file (C41); levels shifted by multiples of 1e-5 and printed with 8 decimals stay strictly increasing; widths through str; validity of the generated table (C80) | `T_SobekChain.v` | proved | Composition of the generation (C80), the level shift and the file (C41). The reader of floats is a correctly rounding codec, as in C41; levels up to 7e9 in size (usual). Levels are equal up to 2e-6, the decimals that are printed. |
| C95 | Roughness tables give the friction that belongs to a level | M_Levels: the interpolation of tables of any numbers with NaN and infinities, and the cross-sections the exporter sees; generate_cross_section of M_Pipeline | commutation with the finite model of M_Friction; a range is finite exactly if the levels are; induction over the sorted sections; refutations by computed runs | `T_Levels.v` | partial | Proved for water that rises at every time step (C95_rising_water) and for runs in which all centre levels are known (C95_generated_run: then the exporter sees the tables of C20 and C89). Refuted for a flood that falls at the end: np.interp needs increasing levels, and all levels above that of the last time step get the friction of the last time step (C95_falling_flood_refuted, rule in C95_last_time_step_rules). Refuted for a run with one cross-section whose centre face is always dry: its levels are NaN, np.arange raises, and the section and all later ones keep their tables in all cross-sections (C95_unknown_levels); the file then gives other cross-sections of the branch the levels of the first one (C95_one_dry_centre_spoils_all_refuted). The helper has no logger, so that nothing is reported. Exact arithmetic. |
| C96 | The result and the log of a run tell whether its output is complete | M_Run.v (actions of a run with the level of every message), T_Report.v | induction over the selected rows and over the jobs of a group: an error message is logged exactly when a row, a file or a writer fails; complete files are specified as the text of a writer of which no write raises | `T_Report.v` | partial | Proved for every run: True without an error message means complete output (C96_clean_log_means_complete, if the output directory is still there), an error message means that something is missing (C96_errors_are_real), False means untouched output and a message (C96_false_means_nothing_done). Refuted: the result is True although errors occurred and nothing was written (C96_true_after_errors_refuted), and nothing is said if the output directory has disappeared (C96_missing_directory_refuted). Failures inside the interpolation of friction, which are not logged, are in C95. |
| C97 | The volumes file of a run describes its cross-sections | M_VolumeFile.v (attributes read by export_volumes, from the geometry before and the table after the check), M_Export.v, T_VolumeFile.v | column lengths by C06 and the length of the check; rows by the specification of the geometry (C61); volumes by the trapezoidal integral (C07) and the size of the repair (C02); the levels of rows 9 and 10 are equal before the check | `T_VolumeFile.v` | partial | Proved: eleven columns of equal length for whatever data, so the file is written to the end and read back; levels and widths are those of the generated cross-section; on finite data the 2D columns are those of the record time steps, with missing volumes in the ten rows below; the corrected volumes add exactly the released share. Violated (C97_volumes_of_the_rows_refuted, for every control volume with finite data and a positive minimum width): the volumes are computed before check_requirements repairs levels and widths, the file shows them next to the repaired ones; rows 9 and 10 always have different levels, positive widths and equal volumes. Strongest true fragment: C97_volumes_integrate_the_unchecked_widths. |
| C98 | The order in which the faces are listed does not matter | M_Pipeline.v (whole chain of one cross-section), M_Rolling.v (rolling mean and mean of a frame), Spec_Same.v, L_Same*.v, T_Same.v, T_SameRun.v | relational proof: two control volumes related by a permutation of the faces and by equality of rational numbers; every stage of the chain maps related arguments to related results (sums and means by permutation, columns per time step, the table by equality), the legacy method by a computed counterexample | `T_SameRun.v` | partial | Proved for the whole of _generate_cross_section (geometry, search for the dike, roughness, check, sections, floodplain base, reduction of points, output points) and the conveyance detection methods 1 and up: two listings of the same faces give the same cross-section or the same exception, for whatever data, missing values included, and for every search for the dike that treats equal geometries equally. Violated for the legacy method 0 (C98_mean_method_refuted): it smooths the velocity with rolling(10) down the rows of a frame, which are the faces in the order of the file (pandas 2 as in pyproject.toml, M_Rolling.v), so that listing the same twelve faces in another order changes the flow width in the top row from 6.001 to 10 m. Strongest true fragment: C98_the_order_of_the_faces_does_not_matter. |
| C99 | The vertical datum does not matter | the same files, the relation with the levels shifted by h | relational proof: differences of levels are equal, comparisons of levels are equal, interpolated and averaged levels are shifted; the constant zero of the crest level by a computed counterexample | `T_SameDike.v`, `T_SameRun.v` | partial | Proved for the whole of _generate_cross_section with conveyance detection methods 1 and up, finite areas, length and minimum width: raising all bed and water levels by h raises all levels of the cross-section and of its roughness tables by h and changes no width, area or roughness; crest and floodplain base follow if the search for the dike is on, succeeds, and follows the datum itself. Violated (C99_floodplain_base_refuted): without the search (SDCorrection off, or a failed search) the crest level stays 0 and the floodplain base level is kept below 0 minus the tolerance, so that it is the same for a river twenty metres higher. Strongest true fragment: C99_the_datum_does_not_matter_partial. That scipy's search follows the datum is a hypothesis of the theorem (follows); its start simplex is scaled with the size of the crest level. In real arithmetic the search sees the same errors at raised levels whatever the optimiser, and the dike follows for every optimiser that follows the datum itself (T_SameDike.v). |
| C100 | The resolution of the 2D mesh does not matter | M_Geometry.v and M_Pipeline.v (existing), T_Mesh.v (division of faces as specification) | every masked area and volume is a sum over the faces of a function of the face; a face and its parts contribute the same sum; the remaining steps map equal columns to equal columns; the rest of the statement by computed counterexamples | `T_Mesh.v` | partial | Proved for whatever data in the faces and conveyance detection methods 1 and up: levels, total widths, wet areas, total volumes (2D and 1D) and section widths are the same for every division of the faces; flow widths, areas and volumes as well if the mean of the three highest velocities is the same in every time step. Violated: this mean counts faces, so that dividing the fast face trebles the threshold and the flow width at the top falls from 9 to 3 m with the default thresholds (C100_flow_width_refuted); the floodplain base level is a mean over faces without regard to area (C100_floodplain_base_refuted); a control volume of nine faces is left out and the same one with a face divided is not (C100_few_faces_refuted). Flow links (roughness) are not part of the division. Strongest true fragment: C100_a_finer_mesh_partial. |
| C101 | What follows the highest water level does not matter | M_Geometry.v, M_Friction.v, M_Pipeline.v (existing); T_Limb.v (continuation of a run as specification) | every stage maps a list with additional entries at its end to the same result with additional entries; the filter on rising levels removes the additional rows since none is above the running maximum; roughness and legacy method by computed counterexamples | `T_Limb.v` | partial | True for everything but the roughness with the maximum velocity method: all columns, widths, levels, crest level, section widths and base level are equal, and the roughness tables have the same rows followed by one row per additional map. False for the roughness at the common levels: numpy.interp gets levels that do not rise, and levels above the last one get the friction of the last time step (C101_roughness_refuted). False for the legacy method, which compares with the mean velocity over all output maps (C101_mean_method_refuted). Assumes a correction that depends only on columns and volumes, SkipMaps and LakeTimesteps not negative. |
| C102 | The length of the control volume cancels | M_Geometry.v, M_Sections.v, M_Pipeline.v, M_Correction.v (existing); T_Reach.v, T_ReachDike.v (the relation "k times" on numbers, columns and volumes) | relational proof: sums and minima of areas are scaled, quotients of two scaled numbers are equal; masks, levels and depths are literally the same; for the search over the reals the cost function at scaled volumes is the cost function | `T_Reach.v`, `T_ReachDike.v` | proved | T_Reach.v compares two runs of generate_cross_section whose face areas and length differ by the factor k, for every conveyance method; the search for the dike is a parameter that gives the same crest and k times the volumes. T_ReachDike.v shows that the modelled search is given the same errors, stage by stage, and that the dike found is the same, if the external optimiser follows the unit of volume and all measured volumes are at least 1 m3. C102_below_a_cubic_metre_refuted records what happens otherwise: the errors are divided by at least 1 m3, so that the weight of such a row depends on the length. |
| C103 | The output interval of the 2D run does not matter | M_Geometry.v, M_Friction.v (existing); T_Interval.v (series at a subset of the maps as specification) | every stage maps the entries at a subset of the maps to the entries of its result at that subset; the envelope of the flow width by a characterisation as minimum; lakes and flow width by computed counterexamples | `T_Interval.v` | partial | Proved (T_Interval.v) for rising water at the location, every conveyance method but the legacy one, and lakes that begin to rise at the same map in both runs: all columns except the flow width, and the roughness tables, have the rows of the remaining maps. The flow width is a minimum over the rows above and hence not smaller with fewer maps, and equal if the widths rise. Refuted in general: a lake counts once it rises by more than 1 mm between two maps, so that a lake that rises slowly counts only with a long output interval; a face that does not convey during one map narrows the flow width at all levels below. |
| C104 | A selection of cross-sections is computed as in the whole run | M_Run.v, M_Levels.v (existing); T_Selection.v (closed form of the tables after the interpolation) | closed form of the interpolation by the sections of each cross-section; range of levels characterised as minimum and maximum over the set of levels; counterexample computed through the exported file | `T_Selection.v` | partial | A location of a selection gives the cross-section of the whole run, in the order of the selection, and a location outside the selection cannot stop the run (C104_selected_cross_sections). After the interpolation of the friction all is the same but the roughness tables; these have the same friction at all levels that both have, and are the same if the selection has the lowest and the highest level of the run (C104_selection_does_not_matter_partial), in particular for a selection of all locations in another order (C104_order_of_the_selection). The levels are known for all cross-sections with water at their centre (C104_generated_cross_sections_are_known). Refuted for the roughness at every level: the levels of the tables start at the lowest level of the selected cross-sections with steps of 0.1 m and end below the highest one. A cross-section with levels between 1.00 and 1.05 m and a friction of 40 to 60 has a friction of 40 at all levels if it is computed alone, and of 50 at 1.05 m and 60 at higher levels if another cross-section has levels up to 3 m (C104_roughness_refuted). |
| C105 | The order of the locations does not matter | M_Classify.v, M_Data.v, M_Run.v (existing); T_Order.v (locations as a multiset of rows) | the nearest location is a property of the set of rows; permutations through the filter by region and the fold over regions; tie by a computed counterexample | `T_Order.v`, `T_Selection.v` | partial | For every search that gives a nearest location the model data after the import are the same for every order of the rows, with and without regions and section polygons, if no face or link has two nearest locations with different ids (in one region); a search may take any of several nearest ones (C105_control_volumes_partial). The same locations in another order give the same cross-sections in that order (C105_results_in_the_order_of_the_file), also after the interpolation of the friction (C104_order_of_the_selection). Refuted for a face in the middle between two locations, with the search that takes the first of the nearest samples: it changes its control volume with the order of the rows (C105_ties_refuted; sklearn documents that ties depend on the order of the samples). |
| C106 | The coordinate system does not matter | M_Data.v, M_Import.v, M_Polygon.v, M_Classify.v, M_Pipeline.v (existing); T_Motion.v (motions of the plane acting on map files, tables, polygons, locations) | equivariance of every step of the import (faces, edges, nodes, results, labels of polygons, nearest locations), invariance of the speed, then generate_cross_section on selections that differ in coordinates only | `T_Motion.v` | proved | Whole chain from the map file, the locations and the polygons to the cross-section, for rotations with rational cosine and sine, reflections and translations, in exact arithmetic: the moved files give the moved model data with the same caches, the same control volumes, and the same cross-section with every configuration (also the legacy conveyance method) but for the coordinates of the points in the output files. Hypotheses: the tests of shapely and MeshKernel depend on the geometry alone (satisfied by the test for convex polygons, C106_convex_polygons), the square root depends on the value, no face or link has two nearest locations. The centre face is the same if only one face is nearest to the location (C106_centre). |
| C107 | A comparison can be repeated from its csv files | M_Reader.v (csv files as cells, the directory as a record of optional files, load_flow1d_data, get_1d2d_map, load_flow2d_data, digitize_data, the arguments of the constructor, the window on an index of datetimes or strings); T_Reader.v | case analysis over the state of the directory; the written index read back; the second run computed from the state that the first one left | `T_Reader.v` | partial | State machine of the output directory (M_Reader.v). In an empty directory the data is that of the two files (C107_first). After a comparison that succeeded, from any state of the directory, later ones read only the csv files, write nothing, cannot fail and do not depend on the files that are named (C107_repeat, C107_csv_only); in a new directory they have the data of the first one as it comes from a csv file (C107_second), and exactly the same if numbers and names survive the csv format and the times are whole seconds and not all midnight (C107_same). One file of a pair is never combined with new data (C107_pairs); files are not overwritten (C107_kept). Refuted for daily results at midnight: pandas writes dates without a time, which the date_format of the reader does not accept, so the index is strings and every use of the 2D tables, and after the first time of the 1D tables, is a TypeError (C107_refuted; C107_times and C107_access give the exact condition). |
| C108 | A longitudinal difference compares one station at one time | M_Longitudinal.v (_time_func, _stat_func, _apply_stat with the first of several columns of one label, subtraction of pandas series by label); T_Longitudinal.v | closed form of both lines on the places of a route; uniqueness of the record of a moment; counterexamples computed | `T_Longitudinal.v` | partial | The lines of differences are characterised for all tables (C108_lines_of_the_moments: the record of the moment is looked up in each table). They compare one time if both models have the same output times (C108_same_time_partial), and the statistics of one station if the river kilometres differ and no two stations have equal levels (C108_statistics_partial). Refuted: with 2D results at noon and 1D results at midnight equal water levels show a difference (C108_other_times_refuted); two stations at the river kilometre of a junction are both drawn with the levels of the first one (C108_junction_refuted); a station with the same 1D levels as another one has no difference (C108_equal_levels_refuted). |
| C109 | The summary of the error statistics covers every station once | M_Longitudinal.v (summary of statistics_to_file); T_Longitudinal.v | unique keeps one of each branch in order; the stations of the lines are a permutation of all stations; means bounded | `T_Longitudinal.v` | proved | For statistics without infinities; the numbers before they are written with two decimals. |
| C110 | A heat map shows every station of the route in the window | M_Figures.v (difference of two tables by label, dropna, heat map along a route); T_Figures.v | closed form of the heat map; membership of the moments; counterexamples computed | `T_Figures.v` | partial | The contents of the heat map are characterised for all tables (C110_rows_and_moments): the moments are those at which some station has both levels (C110_moments), each row is that of a station at its river kilometre and the differences of each station occur (C110_stations). There is a row for each station if no two stations have the same differences (C110_row_for_each_station_partial). Refuted: the window is not used, so moments before the start are shown (C110_window_refuted); stations at which both models agree have equal rows and only the first one is shown (C110_agreement_refuted). |
| C111 | The statistics in the figure of a station belong to its lines | M_Figures.v (the object with its window and its kept statistics, figure_at_station); T_Figures.v | the table of a window has the records of the window; invariants of the window and of the statistics over the calls | `T_Figures.v` | partial | The lines are always those of the window (C111_lines). The statistics are those of the lines for the first figure of an object (C111_statistics_of_the_lines_partial) and after statistics_to_file in the same window (C111_after_writing_partial). They are kept after that: in any other window the figures show the statistics of the first window (C111_statistics_stay, C111_other_window_refuted). |
| C112 | The discharge distribution adds to one hundred percent | M_Figures.v (figure_compare_discharge_at_stations); T_Figures.v | closed form of lines, shares and error; field arithmetic of the shares | `T_Figures.v` | partial | The lines and the shares are those of the values in the window (C112_figure), the shares of known discharges with a total other than zero add to 100 and lie between 0 and 100 (C112_shares), and other numbers of stations are refused (C112_two_stations). Refuted: a missing discharge counts as zero in the total, so that the other station shows 100 percent (C112_missing_refuted); the error is drawn for the second station only and for all moments, also outside the window (C112_error_refuted). |
| C113 | Faces that stay dry do not matter | M_Geometry.v, M_Friction.v and M_Pipeline.v (existing), T_Dry.v (insertion of dry faces and links as specification) | a dry face is outside every mask, so that each sum over the faces has the same terms; a zero velocity is sorted in front of the three highest; friction zero is left out of the mean; the rest by computed counterexamples | `T_Dry.v` | partial | Proved for the conveyance detection methods 1 and up: levels, total widths, wet areas and total volumes are the same for whatever dry faces; the whole geometry is the same if the dry faces stand still and the other velocities are known (C113_dry_faces_that_stand_still); links without friction in known sections change no roughness table (C113_dry_links); with section names from polygons and ten faces or more the whole cross-section is the same (C113_cross_section_partial). Violated: a dry face with the no-data value as velocity has a speed of 1412.8 m/s and stops the other faces from conveying (C113_no_data_velocity_refuted); with the numbers of the variance classification dry faces count in the section widths and in the base level of the floodplain (C113_sections_refuted); they count in the minimum of ten faces (C113_few_faces_refuted); a dry link in a section of its own adds a table with friction zero (C113_new_section_refuted). |
| C114 | Skipped maps are as good as maps that are not in the file | The composition of the models of C76, C31 and C80 (`M_Data`, `M_Import`, `M_Pipeline`), from the map file to one cross-section, and the check of the settings in `M_Run`; nothing new is modelled. | `T_Skip.v`: `without_first k` cuts the first k maps from every time-dependent variable and from the time axis. Each step (reading, classes, sections, selection, geometry, friction tables) commutes with the cut, so skipping k + j maps of the file equals skipping j maps of the shorter file, exceptions included. Two files that agree after their skipped maps therefore give the same cross-sections. | `T_Skip.v` | proved | Equality of results and exceptions of the modelled run for one location, for a non-negative SkipMaps that leaves a map. The warning for skipping more than half of the maps may be absent for the shorter file; the theorem on the settings says so. |
| C115 | A plot style changes the look of a figure and not what it shows | `PlotStyles` in utils.py as `M_Style.v`: the two styles with their grids, fonts and widths, the colour cycle, the settings of the process (locale, fonts), the test for an axis of times on the first tick label, the collection of legend entries. What is drawn is opaque; float(), drawing of tick labels and installed locales are quantified. | `T_Style.v`: exact effect of a call for every figure and style (what is shown is unchanged, dates exactly on axes whose first label is no number, legend entries in order), refusal of unknown styles before any change, and witnesses for years taken for numbers, names taken for times, a second legend, and labels without handles. | `T_Style.v` | partial | What is shown, the legend of labelled lines in order, the effect on the settings and the refusal of unknown styles are proved for every figure. Dates are shown exactly on axes whose first tick label is no number; refuted as a test for times: years are taken for numbers and names for times. A second application adds a second legend (the axes stay the same, C115_again_partial), and additional labels without a handle are dropped. float(), tick labels and installed locales are oracles; matplotlib's drawing is not modelled. |
| C116 | A map that occurs twice does not change the cross-sections | The composition of the models of C76, C31, C80 and C20, as for C114; nothing new is modelled. | `T_Repeat.v`: `again k` repeats entry k of a list. The repeated level is no record, so that the monotonicity mask of the longer series is the old mask with the copy left out, and everything that is selected with it stays the same; lakes, conveyance (method 1), areas and volumes commute with `again`. `L_Rows.v` carries a change of the maps from the file to the model data. For the common levels the interval that contains a level is unique if levels rise, so the interpolation does not see the copy. Two refutations are computed. | `T_Repeat.v` | partial | From the map file to one cross-section, exceptions included, for ConveyanceDetectionMethod other than 0, depths that are not minus infinity and LakeTimeSteps counted on past the copy: everything is the same but the roughness tables, which have the repeated row; on the common levels they are the same where the levels of a table rise. Refuted: with LakeTimeSteps unchanged an earlier map is looked at and other faces become lakes; with method 0 the mean over the maps changes. The search for the summer dike is an oracle that is assumed not to look at the roughness levels. |
| C117 | A run that overwrites leaves nothing of an earlier run | `M_Run.v` as for C44-C46 and C96: the actions of a run on the files of the output directory; nothing new is modelled. | `T_Rerun.v`: invariant of lists of actions that a file is opened before anything else is done with it; then its contents after the actions do not depend on the directory if it is opened, and are unchanged if not. Induction over the jobs, the groups and the cross-sections; with C96 for the files of a run without errors. Two refutations are computed. | `T_Rerun.v` | partial | For every input and directory each file but the log is that of a run in an empty directory exactly if the run opens it or it was not there, and a file that is not opened stays as it was (C117_files_of_an_overwriting_run_partial); a second run changes no file (C117_running_twice_is_running_once). After a run without errors that has generated cross-sections only roughness_test.csv and the roughness files of sections without tables can be old (C117_what_is_left_of_an_earlier_run). Violated: such a roughness file stays next to the new ones (C117_old_roughness_refuted), and if no cross-section is generated all old results stay although the run returns True (C117_no_cross_sections_refuted). Assumes that reading the input, the map output and the envelopes open their files before they write to them. |
| C118 | What happens outside a control volume does not matter for its cross-section | `M_Data.v`, `M_Import.v` and `M_Pipeline.v` as for C77-C80, C94 and C101: the map file is imported, faces and links get classes and sections, the control volume is selected and the cross-section generated; nothing new is modelled. | `T_Elsewhere.v`: the classes and sections commute with replacing areas, bed levels and results (relational comparison of two map files), and boolean indexing by the class gives the same rows for columns that agree at that class. Refutation by computation for the division over sections without polygons. | `T_Elsewhere.v` | partial | Holds if section polygons are given, or if the Chezy values of the last map are the same everywhere: then every area, bed level, depth, level, velocity and link Chezy value outside the control volume is without influence, also on the exception raised. Violated without section polygons: the variance split of faces and links looks at the whole model, and a smooth bed in another control volume changes the main section from 10 m to 2.1 m. The roughness on common levels of several cross-sections is C104. |
| C119 | The roughness does not change the geometry | `M_Data.v`, `M_Import.v`, `M_Pipeline.v` and `M_Geometry.v` as for C76-C80; nothing new is modelled. | `T_Parts.v`: relational comparison of two map files that differ in the Chezy variables, step by step from the import to the finished cross-section; build_geometry does not read the section of a face. Refutation by computation without section polygons. | `T_Parts.v` | partial | Levels, total and flow widths, crest and extra areas are the same for all Chezy values. With section polygons only the roughness tables differ. Violated for the section widths without section polygons: faces are divided by their Chezy value, so one rough or smooth face changes the main section from 10 m to 2.1 m. |
| C120 | The velocities change the conveyance only | As C119, and `M_Correction.v` for the search of the summer dike. | `T_Parts.v`: relational comparison of two map files that differ in the velocity variables; the reduction of points looks at levels and total widths only. `T_Velocity.v`: with optimisation method 0 crest and extra total volume do not depend on the flow volumes for every minimiser; refutation for the methods 1 and 2 with a minimiser that stops at a perfect fit. | `T_Parts.v`, `T_Velocity.v` | partial | Holds for both conveyance methods if the dike search gives crest and extra total volume from the total volumes, which it does with SDOptimisationMethod 0 for every minimiser. Violated with the methods 1 and 2: the crest is fitted to the flow volumes as well. Section widths follow the flow width and are not part of the claim. |
| C121 | A setting changes only the part of a cross-section that it is for | `M_Pipeline.v` as for C80: the settings of the configuration are arguments of the model of the cross-section; nothing new is modelled. | `T_Settings.v`: inversion of the construction into its parts, then comparison of two constructions that differ in one setting. For MaximumPointsInProfile the last flow width is the same or no row is left (C11), also for negative numbers. | `T_Settings.v` | proved | The number of points is for tables with finite values (C80); fewer than two points give no cross-section at all, see C11. With optimisation method 0 the conveyance settings do not change the crest either (C120). |
| C122 | Lower velocity thresholds never make the flow width smaller | `M_Geometry.v` (masks, areas, envelope, rows below the first level) and `M_Pipeline.v` as for C80; nothing new is modelled. | `T_Threshold.v`: the mask of the higher thresholds is part of that of the lower ones, from there monotonicity step by step up to the columns of the geometry; a bound of one millimetre per row for the repair; refutation with a face of 50 cm2. | `T_Threshold.v` | partial | Violated by the repair of widths that do not increase: a width equal to the one below is raised by a millimetre, a width that is larger by less is kept, so that a small slow face that counts with the lower thresholds only can make the width smaller (C122_repair_refuted, a whole cross-section). Proved: before the repair every flow width is the same or larger, for both methods, and levels, total widths and total volumes are the same; after the repair and before simplification row i is smaller by i millimetres at most. For method 0 the mean velocity per step is an oracle that is assumed to be nonnegative or missing. |
| C123 | The cross-sections together hold the wet area of the 2D mesh | `M_Data.v`, `M_Import.v` and `M_Geometry.v` as for C76, C77 and C61; nothing new is modelled. | `T_Balance.v`: the width in the row of a step times the length is the sum over the faces of the selection, and with the partition of C77 for any quantity per face (`cover_the_mesh_once` in `T_Data.v`) the sum over the locations is that over the mesh; refutation with nine faces. | `T_Balance.v` | partial | Violated: a control volume with fewer than ten faces gives no cross-section, so that its area is in none of them (C123_few_faces_refuted), and the repair of the widths (C02) adds millimetres. Proved for the total widths as they are computed from the 2D results, before the repair, from the map file on: import, division over the locations, selection, lakes, time steps and rows. The geometries of all locations are assumed to be computed, as they are for a control volume of any size. |
| C124 | The cross-sections together hold the water of the 2D mesh | `M_Data.v`, `M_Import.v` and `M_Geometry.v` as for C123; nothing new is modelled. | `T_Water.v`: without lakes and deeper faces the corrections leave the depths as they are, so that the volume in a row is the sum over the selection; sum over the locations as for C123; refutation with a location on a face that is dry at the start. | `T_Water.v` | partial | Violated: of a face that is deeper at the start than the face at the location the extra depth is left out at all steps (C124_deeper_faces_refuted), of a lake the initial depth; both are meant by the code but not made up for elsewhere. Proved from the map file on for control volumes without lakes and without such deeper faces: then the 2D volumes in the rows of a step add up to area times depth over the whole mesh. |
| C125 | The unit of velocity does not matter | _distinguish_conveyance_from_storage, build_geometry, generate_cross_section | relational: sorting, slicing, means and comparisons commute with a positive factor, so that the masks are equal | `T_Speed.v` | proved | Exact rational arithmetic; the smoothing and the mean of conveyance method 0 are oracles that are assumed to commute with a positive factor, which C125_mean_over_faces shows for a mean over the faces. In binary64 rounding may differ unless the factor is a power of two. C125_case: leaving the threshold in the old unit changes the flow width. For the map file the square root is an oracle that gives k times the root for k squared times a number; C125_square_root is one that is exact for squares. Both runs have to end without exception there. |
| C126 | The reference level and the clock of a comparison do not matter | _compute_statistics, _apply_stat, _apply_startstop_time | relational: means, sorting and the union of two indices commute with affine maps; equality of sorted lists with the same elements | `T_Roles.v` | proved | Exact rational arithmetic, per station; the standard deviation is compared by its square; a time occurs once in an index. C126_case: raising the 1D levels alone changes the bias. |
| C127 | The order of the lines in a configuration file does not matter | as C91: configparser subset, _read_inifile and the three _extract functions | induction over permutations: writes to different keys commute, only one option sets the output directory | `T_Reorder.v` | proved | For lines that do not start with a blank (see C91), remarks without a per cent sign, and files in which no section and no option occurs twice; files in which one does are refused (C75). Parser of the standard library is modelled, references of the form %(name)s are not. |
| C128 | The order of the polygons does not matter | MultiPolygon reading and classification, set_fm_model_data and the build of a cross-section | first and last match are the same for every permutation if overlapping polygons agree; induction over permutations | `T_Shuffle.v` | proved | C128_overlap_matters shows that the condition on overlapping polygons is needed. Which exception a refused file raises and the order of the overlap warnings may depend on the order. |
| C129 | Other attributes of a polygon do not matter | as C128, from the features of the file on | relation between the features carried through reading, validation, classification and the build | `T_Attributes.v` | proved | The attributes of a feature are compared after their names are made lower case; of two attributes with the same name the later one counts. |
| C130 | Roughness tables follow the roughness of the links | _build_roughness_tables and the interpolation to common levels | relations between two runs carried through masks, means and folds; linearity of np.interp | `T_Chezy.v` | proved | C130_dry_link_matters shows that the condition on the links is needed: a value on a link that was dry takes part in the mean. The other weighing method always fails (C19). |
| C131 | The units and axes of a profile do not matter for its simplification | polysimplify and reduce_points | relation between the areas carried through the elimination loop; every comparison of areas survives a positive factor | `T_Affine.v` | proved | In binary64 the areas are rounded, and points whose areas are nearly equal may be exchanged. |
| C132 | The split by variance depends on the spread of the values only | _classify_roughness_sections_by_variance | from the optimality and uniqueness of the split (C34); costs are the same after a permutation and a shift | `T_Split.v` | partial | Order, earlier labels and a common shift do not matter. The unit does: the candidates for the split are one unit apart (C132_unit_refuted). |
| C133 | The order of the lines in a branch rule file does not matter | _parse_branch_rule_file, _apply_branch_exceptions and the generator of locations | tables of rules compared by lookup; sorting of the exceptions forgets their order | `T_RuleOrder.v` | proved | C133_two_rules_matter shows that the condition on the branches is needed: of two lines for a branch the later one counts. No mutations were tried against these theorems. |

## 6. Trusted base

* The Coq 8.16 kernel, and `vm_compute` where used (examples and witnesses).
* That the `M_*.v` files describe the Python code: see the comment at each
  definition, which names the file and lines and the simplifications.
  The behaviour of numpy, pandas, scipy, sklearn, shapely, geojson and
  configparser is modelled from their documentation.
* Axioms: none of our own.  `Print Assumptions` follows each theorem in the
  `T_*.v` and `F_*.v` files.  Of the 661 entries of the manifest 603 are closed
  under the global context.  The other 58 are about real numbers
  (`T_Correction.v`, `T_Start.v`, `T_ReachDike.v`, `T_SameDike.v`, `T_Velocity.v`) or about binary64
  (the `F_*.v` files, on the Flocq library); they belong to C01, C02, C04,
  C05, C07, C08, C09, C11, C13, C14, C15, C16, C19, C20, C51, C52, C53, C57,
  C62, C63, C70, C74, C86, C89, C99, C102 and C120.  They use axioms of the standard library only:
  `ClassicalDedekindReals.sig_forall_dec`, `ClassicalDedekindReals.sig_not_dec`,
  `FunctionalExtensionality.functional_extensionality_dep` and
  `Classical_Prop.classic`.

### Oracles and what is assumed of them

| oracle | where | assumption |
|---|---|---|
| scipy minimiser | C14, C63 | C14: nothing.  C63: exact minimum, non-negative volume |
| rolling mean of conveyance method 0 | C10 | nothing; M_Rolling.v models it, and T_Rolling.v closes the rule |
| interval search of np.interp | C20, C65 | brackets the value |
| sklearn k=1 search | C32, C33 | `is_nearest`: no sample is nearer; ties are open.  Shown to be satisfiable |
| point in polygon (shapely `within`, MeshKernel) | C35, C37 | nothing; agreement of the two only where the theorem says so |
| shapely `intersects` | C68 | nothing |
| float printing and reading | C23, C28, C39, C42, C43 | records `float_codec` etc.: printed text is plain and reads back.  Shown to be satisfiable |
| `to_float` of a river kilometre | C55 | nothing, or never NaN where stated |
| np.argsort | C55 | a permutation that sorts, NaN last; ties are open.  Shown to be satisfiable |
| geojson rounding of coordinates | C59 | idempotent |
| repr and float() of the time of a file | C37, C38 as text | a JSON number that reads back.  Shown to be satisfiable |
| str.lower on code points, float() of a JSON number | C93 | ASCII letters as usual; nothing |
| `can_open`, log line text, exporter failures | C44-C46 | nothing |
| reading of a csv cell by pandas | C56 | a non-empty name reads as itself, an empty cell as missing |

### Not modelled

The drawing itself by matplotlib (what is drawn and with which style is in `M_Visual.v`,
`M_Longitudinal.v` and `M_Style.v`), progress bars, console colouring, reading of
NetCDF variables (the arrays are inputs, what is done with them is in `M_Data.v`), rounding of binary64 other than in `F_*.v`, and the
numerical behaviour of the libraries above.  Python text is ASCII, except in
`M_Json.v` where it is a list of code points.

## 7. Findings (behaviour of the code that contradicts a stated property)

Each one is a theorem or example in the file of the property, with a witness.

* C01: all widths zero raises IndexError in check_requirements.
* C06: LakeTimesteps not below the number of time steps raises IndexError.
* C08: the 2D volume is negative when a pool deeper than the centre dries.
* C10: missing velocities count among the three highest.
* C11: a limit of 0 or 1 points empties the profile; ties keep fewer rows.
* C16: floodplain 1 can get a negative width.
* C17: labels of section polygons are names and never equal 1, 2, 3, so all
  widths of the sections are computed as if there were no labels.
* C18: the floodplain base is NaN if all floodplain bed levels are missing.
* C19: the area weighing raises on imported data, and one dry link makes the
  friction zero.
* C20: equal levels of a section give an empty common level column.
* C21: Project.set_parameter does not reach debug parameters.
* C23: a percent sign makes the printed configuration unreadable; '#' truncates
  a value; an empty list cannot be restored.
* C25: a missing [input] or [output] section is an AttributeError.
* C26: the output directory is created relative to the working directory but
  used relative to the configuration file.
* C27: a five-column location file with a header raises ValueError.
* C29: ragged columns shift values to the wrong name.
* C31: velocity components that are no-data are used as velocities.
* C32, C33: duplicate ids count areas twice; a region named like a cross-section
  captures its faces; a region with faces and cross-sections but no links stops
  the run; ids over 99 characters lose their links.
* C34: a missing first value raises ValueError.
* C35: with overlapping polygons points get the first and nodes the last one;
  faces and links take the label of their first node.
* C36: multi-part polygons are accepted and cut to the first part, holes are
  lost, labels keep capitals; duplicate or empty names raise ValueError, which
  the runner does not catch.
* C37: a changed polygon file or default label is not noticed by the cache;
  polygon files that differ only in extension share it.
* C38: an interrupted cache write makes every later run fail.
* C39: a missing section width leaves a truncated definition file.
* C40: two levels 0.0001 apart can be printed alike.
* C41: the flow area column repeats the total area; meta rows have 24 fields
  under a header of 20.
* C42: a cross-section named "id" cannot be read back.
* C43: cross-sections on a branch with a capital are never found; numLevels is
  that of the first cross-section.
* C44: the log file and the map output are not protected by the overwrite check.
* C45: roughness files of sections that are no longer used survive an overwrite.
* C47: CssSelection out of order, duplicated or out of range; a failing row stops
  the run.
* C48: negative SkipMaps.
* C49: the log file never gets footers; the first header is empty.
* C50: all projects of a process share one logger.
* C51, C52, C65, C66: single-point branches are duplicated, exceptions listed
  twice remove a neighbour, two-point branches interpolate from a moved point,
  incomplete blocks reuse the values of the block before.
* C54: the limits of the table that is accessed first are kept for the others.
* C55: a branch that occurs twice gives its stations twice; "nan" is a river
  kilometre.
* C56: names of fewer than nine characters match longer names.
* C57: without common times the error is missing, not zero.
* C60: names with a dot, an extension or a trailing slash are created as one file
  and looked for as another; the default configuration is used silently.
* C62: a resting lake with a velocity counts as flowing.
* C63: the flow stage is fitted to the total 2D volume.
* C69: stations with the same levels as an earlier station are lost from plots.
* C70, C72: missing final values, stations without a river kilometre.
* C71: periods shorter than six days raise ValueError.
* C17: nonalluvial_width is 0 for every cross-section.
* C80: a control volume of ten faces or more that stays dry stops the run.
* C81: is_lake is False for every face, also for the lakes that are detected.
* C82: the area labelled "1D Flow Volume (incl. SD)" shows the flow volume
  without the summer dike.
* C83: figures of an earlier run are never replaced by `run`; plot_cross_sections
  raises TypeError (unknown argument pbar); VisualiseOutput without a logger
  raises AttributeError.
* C84: with cross-sections on two branches get_cross_sections_for_branch and
  figure_roughness_longitudinal raise ValueError for every branch.
* C84: a sub-branch whose name begins with that of another is listed under both.
* C85: one control volume whose faces lie on one line loses the envelopes of all
  cross-sections (QhullError is not caught per cross-section); the rings in
  cross_section_volumes.geojson are not closed.
* C86: two levels of a generated cross-section that are 0.00001 apart are equal in
  the exported definition file.
* C87: the plain roughness table (test format) raises AttributeError after its
  header.
* C88: a configuration that was loaded by a relative path with a directory and is
  printed, saved and loaded again no longer finds its input files; the defaults
  are used silently.
* C89: the highest level of a section is never in its roughness file; a section with
  a single level in the whole run gets an empty table.
  With rounding the last level can lie just above the highest one (1.0 to 1.3 gives
  1.3000000000000003), since numpy.arange fixes the number of levels beforehand.
* C91: an option line that starts with a blank becomes part of the value before it; both
  parameters keep their defaults without a message.  A per cent sign in a remark after a
  value makes the file unreadable.
* C90: the parameters CaseName, MinimumDepthThreshold and BedlevelCriterium have no
  effect; nothing reads them.
* C80: a cross-section whose centre face is dry at every time step is generated with
  missing (NaN) levels.
* C95: after a flood that falls at the end all levels above the last water level get the
  friction of the last time step.  One cross-section with a dry centre stops the
  interpolation for its section and all later sections of all cross-sections without a
  message; the roughness file then gives every cross-section of a branch the levels of
  the first one.
* C96: run returns True, documented as "run was successful", although no cross-section could be
  generated or no file could be written; if the output directory disappears during the run
  nothing is written and nothing is said.
* C97: the 1D volumes in volumes.csv belong to the widths and levels before check_requirements,
  the file shows the repaired ones; the tenth and eleventh row of every cross-section differ in
  level and have the same volume.
* C16, C19: with rounding the section widths can add up to less than the largest flow width
  (8.7 + 2.4 + the remainder up to 443.1 gives 443.09999999999997) and the mean friction of three
  equal Chezy values 51.2 is 51.20000000000001.  The deviations are bounded by 2^-26 m and by
  n units of 2^-52 (relative).
* C15: in binary64 the share of the extra volume is exactly 1 from about 1.9 m above the crest
  (default transition height), so it is not strictly increasing there.
* C70: in binary64 a station with a constant level of 51.2 has a max3 above its largest level.
* C80: a cross-section whose centre is dry stops the whole run with IndexError when
  MaximumPointsInProfile is six; with twenty points it is generated.
* C22: a switch in the configuration file is on only for the word true (any capitals); yes, on, 1
  and an empty value switch off a parameter that is on by default, without a message.
* C51, C52, C53: the lengths add up to the length of the branch up to rounding only: points at
  250.1, 500.3, 750.4 and 1000.6 m give 2^-46 m too little.  The deviation is bounded by
  n + 4 + 2m units of 2^-52 (relative) for n points and m exceptions.
* C98: the legacy conveyance method (method 0) smooths velocities over ten neighbouring rows of
  a frame of which the rows are faces, not time steps, so that the cross-section depends on the
  order in which the file lists the faces; its threshold is one mean over all faces and times.
* C99: without the search for a summer dike the crest level is 0 and the floodplain base level is
  kept below it, whatever the datum: a floodplain at 22 m gets a base level of -0.5 m.
* C100: the relative velocity threshold uses the mean of the three fastest faces, so that
  refining the mesh around the fastest face turns other faces into storage; the floodplain base
  level is the mean over faces whatever their area; nine faces are too few, whatever their area.
* C101: a falling limb at the end of the 2D run changes the roughness: the tables get its levels
  at their end, and numpy.interp (which needs rising levels) gives all levels above the last one
  the friction of the last time step.  The legacy conveyance method compares with the mean
  velocity over all maps, so that fast flow in the falling limb turns faces into storage.
* C102: the squared errors in the search for the summer dike are divided by the larger of the
  measured volume and one cubic metre; below a cubic metre the weight of a row depends on the
  length of the control volume.
* C103: a lake counts as soon as it rises by more than 1 mm from one output map to the next, not
  when it has risen by 1 mm as the docstring of _identify_lakes says.  Whether a slowly rising
  lake ever counts depends on the output interval; a map during which a face does not convey
  lowers the flow width at all levels below it.
* C104: the roughness tables of a cross-section depend on which other cross-sections are selected
  (CssSelection): the common levels start at the lowest level of the selection.  With levels that
  vary by less than 0.1 m in all selected cross-sections the tables have one row.
* C105: a face or link that is equally near to two locations (on a regular mesh with locations on
  cell centres or halfway these occur) is assigned by the order of the rows in the location file.
* C107: with output at midnight of each day the csv files have dates without a time, which
  pd.read_csv does not convert with date_format "%Y-%m-%d %H:%M:%S"; the index stays strings and
  data_2d_h raises a TypeError.  The same with fractions of a second.  In Compare1D2D the
  attribute time_offset_1d has no effect: the data is read in the constructor, where it is 0, and
  once the csv files are there it is not applied.  The constructor tests the type of path_1d
  for both paths: a 2D file alone is ignored, a 1D file alone is a TypeError.
* C108: in the longitudinal figures the record of a moment is looked up separately in the 1D and
  the 2D results, so with other output times different times are subtracted.  For the statistics
  (max13, last25, ...) the columns are labelled by river kilometre and the first column of a label
  is used for all: at a junction, where two branches of the route have a station at the same river
  kilometre, the second one is drawn with the levels of the first one.  The file name of the
  figure does not contain the statistic, so figures of one route overwrite each other.
* C110: heatmap_time takes the tables without the time window, and get_data_along_route leaves out
  stations with equal rows, so that all stations but the first one at which 1D and 2D agree are lost.
* C111: _get_statistics keeps the statistics of the first window; figures made after a change of
  start_time or stop_time show the old ones in the legend.
* C112: in the figure of the discharge distribution the error line stands after the loop over the
  stations and uses `station` of the last turn, without the window; a missing discharge counts as
  zero in the total, so that the other station gets 100 percent.
* C05: in binary64 the wet area of the extension can be larger at a lower level, by a unit in the
  last place, if a cell of 2^-64 square metre dries in between (numpy adds seven areas in another
  order than eight).
* C09: a missing depth makes a resting lake count from then on, since the comparison of an unknown
  rise with 1 mm is false.
* C113: a dry face with the no-data value as velocity takes part in the mean of the three highest
  velocities (as 1412.8 m/s) and switches the relative threshold off; dry faces count in the widths
  of the sections, in the base level of the floodplain and in the minimum of ten faces; a dry link
  in a section of its own gives a table with friction zero.
* C115: `PlotStyles._is_timeaxis` decides by the first tick label: a time axis labelled with years
  is taken for numbers, an axis with names gets dates. `figure_longitudinal(add_to_fig=...)` styles
  the figure again, which then has two legends on top of each other.
* C116: a copy of a map (restart) shifts LakeTimeSteps: the lake test then looks at an earlier map, and
  if that is the copy of the first map every face that is wet in it is taken for a lake.
* C28: the generator writes a branch name with a comma as it is; the reader of the location file then
  refuses the whole file.
* C67: a branch that is named twice in a rule file keeps only the last line, without a message; a line
  with blanks only ends in an IndexError.
* C39: the definition reader strips the id, so a cross-section whose name has blanks around it is not
  found under its own name; the width of the third section (floodplain2) is written but never read.
* C79: a branch name with a comma shifts the columns of its rows in the SOBEK 3 roughness file.
* C09: an activated lake is left out again while it is dry.
* C117: a run with overwrite does not remove the files of an earlier run: the roughness file of a section
  that no longer exists stays, and if no cross-section can be generated all old results stay and the run
  returns True.
* C118: without section polygons the sections are a division of all faces of the model by Chezy value, so
  that other Chezy values kilometres away change the section widths and the roughness of a cross-section.
* C119: without section polygons the Chezy values decide on the sections of the faces and so on the section
  widths.
* C120: with SDOptimisationMethod 1 or 2 the crest level depends on the flow volumes, and so on the velocities.
* C122: lower velocity thresholds can make a flow width smaller, by a millimetre per row at most: a width equal
  to the one below is raised by a millimetre, a width that is larger by less than that is kept.
* C123: the area of a control volume with fewer than ten faces is in no cross-section, so that the 1D model has
  less storage than the 2D model.
* C124: water in faces that are deeper at the start than the face at the location is left out of the 2D volumes,
  so that these add up to less than the water in the 2D model.
* C132: the candidates for the split between channel and floodplain are one unit
  apart, so that the result depends on the unit of the roughness; values within
  one unit are never split.
