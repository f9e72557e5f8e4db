{
 "claims": [
  {
   "property": "C01",
   "status": "proved",
   "theorems": [
    "C01_track_ids_never_change"
   ],
   "note": "For every history, distance and nearest-neighbour search; Permutation of rows plus rows of later times only."
  },
  {
   "property": "C02",
   "status": "proved",
   "theorems": [
    "C02_online_rows_conserved"
   ],
   "note": "Online runs with tf given."
  },
  {
   "property": "C03",
   "status": "proved",
   "theorems": [
    "C03_track_ids_contiguous"
   ],
   "note": ""
  },
  {
   "property": "C04",
   "status": "proved",
   "theorems": [
    "C04_table_sorted"
   ],
   "note": ""
  },
  {
   "property": "C05",
   "status": "proved",
   "theorems": [
    "C05_link_iff_nearest_within_radius",
    "C05_last_known_value"
   ],
   "note": "Snapshots in which the eddies are kept apart (one first contour point per identifier)."
  },
  {
   "property": "C06",
   "status": "partial",
   "theorems": [
    "C06_one_eddy_per_track_and_time_refuted",
    "C06_distinct_ids_without_collision_partial",
    "C06_when_two_eddies_share_a_track"
   ],
   "note": "REFUTED: two eddies of a snapshot can join the same track. Proved: they do so only when that track is the nearest to both and within the radius of both, and always when it is closer to both than any other one."
  },
  {
   "property": "C07",
   "status": "partial",
   "theorems": [
    "C07_ntimes_limits_gap_refuted",
    "C07_ntimes_has_no_effect"
   ],
   "note": "REFUTED: ntimes never influences the returned table."
  },
  {
   "property": "C08",
   "status": "partial",
   "theorems": [
    "C08_empty_step_tolerated_refuted",
    "C08_C09_success_condition"
   ],
   "note": "REFUTED: a step without eddies between two steps with eddies raises. The exact success condition is proved (ntimes >= 1)."
  },
  {
   "property": "C09",
   "status": "partial",
   "theorems": [
    "C09_start_at_any_step_refuted",
    "C08_C09_success_condition"
   ],
   "note": "REFUTED: starting after step 0 fails once two steps contain eddies."
  },
  {
   "property": "C10",
   "status": "partial",
   "theorems": [
    "C10_tf_omitted_refuted",
    "C10_tf_zero_is_tf_omitted"
   ],
   "note": "REFUTED: exact condition for a run without tf."
  },
  {
   "property": "C100",
   "status": "proved",
   "theorems": [
    "C100_files_of_a_stopped_run"
   ],
   "note": "The text of a snapshot is written in arbitrary pieces, in order; a stop is a prefix of the operations. Reordering of writes by the file system is outside the model."
  },
  {
   "property": "C101",
   "status": "proved",
   "theorems": [
    "C101_run_again"
   ],
   "note": "With five numbers fitted by the Gaussian fit (as everywhere for whole runs)."
  },
  {
   "property": "C102",
   "status": "partial",
   "theorems": [
    "C102_continue_at_the_step_refuted",
    "C102_continue_one_step_earlier_partial"
   ],
   "note": "REFUTED: a run never writes the snapshot of its first step with eddies, so the cut-off file of step t stays as it is. Starting at an earlier step with eddies whose files are complete works."
  },
  {
   "property": "C103",
   "status": "proved",
   "theorems": [
    "C103_lines_drawn",
    "C103_lines_in_any_arithmetic"
   ],
   "note": "C103_lines_drawn in real arithmetic; C103_lines_in_any_arithmetic says which sides are joined for any arithmetic, so also with rounding (there the mean of a cell whose four sides are crossed is the rounded sum in one of the orders the code may use)."
  },
  {
   "property": "C104",
   "status": "partial",
   "theorems": [
    "C104_reversed_field_refuted",
    "C104_reversed_field_partial"
   ],
   "note": "REFUTED: values equal to the level count as below it, so a peak that just reaches the level has no contour but the reversed peak has one (all in one point). True when no value, and no mean of an ambiguous cell, equals the level."
  },
  {
   "property": "C105",
   "status": "proved",
   "theorems": [
    "C105_order_of_the_axes"
   ],
   "note": "Real arithmetic; same lines as a set (S_Lines.v), direction and order of drawing may differ."
  },
  {
   "property": "C106",
   "status": "proved",
   "theorems": [
    "C106_units_of_the_data",
    "C106_units_of_the_coordinates"
   ],
   "note": "Real arithmetic."
  },
  {
   "property": "C107",
   "status": "proved",
   "theorems": [
    "C107_estimated_time"
   ],
   "note": "Binary64 rounding of every operation (Flocq), for fewer than 2^53 steps and seconds."
  },
  {
   "property": "C108",
   "status": "partial",
   "theorems": [
    "C108_start_without_end_refuted",
    "C108_start_and_end_partial"
   ],
   "note": "REFUTED: without tf (or with tf = 0) t0 is ignored and the run starts at step 0. With an end the steps are as stated."
  },
  {
   "property": "C109",
   "status": "partial",
   "theorems": [
    "C109_list_of_levels_refuted",
    "C109_array_of_levels"
   ],
   "note": "REFUTED: with a list or tuple every run with a step to analyse raises (levels != 0 is a single truth value there)."
  },
  {
   "property": "C11",
   "status": "partial",
   "theorems": [
    "C11_offline_writes_every_snapshot_refuted"
   ],
   "note": "REFUTED: the first snapshot is never written; the exact list of files is proved."
  },
  {
   "property": "C110",
   "status": "partial",
   "theorems": [
    "C110_figure_refuted",
    "C110_no_eddies_refuted",
    "C110_figure_of_a_level_partial",
    "C110_figure_of_the_levels"
   ],
   "note": "REFUTED: the figure of a level raises TypeError when no contour was dropped and AttributeError when none was kept, that of a snapshot without eddies raises AttributeError. In all other cases the figures show what is stated. Which curves and points are drawn in which colour is modelled, not the rendering."
  },
  {
   "property": "C111",
   "status": "proved",
   "theorems": [
    "C111_levels_never_reached"
   ],
   "note": "For rectangular fields of at least two by two points."
  },
  {
   "property": "C112",
   "status": "proved",
   "theorems": [
    "C112_lines_cell_by_cell",
    "C112_part_of_the_domain"
   ],
   "note": "Real arithmetic; lines as a set (S_Lines.v, S_Lines2.v)."
  },
  {
   "property": "C113",
   "status": "partial",
   "theorems": [
    "C113_repeated_level_refuted",
    "C113_repeated_level_partial"
   ],
   "note": "REFUTED: an eddy of radius 0 is reported once for each time the level is given. True when each eddy has a positive radius with no other eddy inside."
  },
  {
   "property": "C114",
   "status": "partial",
   "theorems": [
    "C114_order_of_levels_refuted",
    "C114_order_of_levels_partial"
   ],
   "note": "REFUTED: of two contours of one eddy the order decides which one is reported. True when no eddy of one level lies within the radius of an eddy of another."
  },
  {
   "property": "C115",
   "status": "proved",
   "theorems": [
    "C115_inner_contours_are_closed",
    "C115_eddies_of_a_run_are_closed"
   ],
   "note": "Any arithmetic for the contours; the run in the arithmetic of the model."
  },
  {
   "property": "C116",
   "status": "proved",
   "theorems": [
    "C116_levels_with_contours"
   ],
   "note": "Any arithmetic."
  },
  {
   "property": "C117",
   "status": "proved",
   "theorems": [
    "C117_extrema_of_a_run"
   ],
   "note": "For fields of the shape of the coordinates."
  },
  {
   "property": "C118",
   "status": "proved",
   "theorems": [
    "C118_levels_never_meet"
   ],
   "note": "Real arithmetic; axes as meshgrid makes them."
  },
  {
   "property": "C119",
   "status": "proved",
   "theorems": [
    "C119_lines_meet_in_ends_only",
    "C119_no_point_twice"
   ],
   "note": "Real arithmetic; axes as meshgrid makes them. The condition on the level is needed: C104_reversed_field_refuted has a line from a point to itself."
  },
  {
   "property": "C12",
   "status": "proved",
   "theorems": [
    "C12_file_names_distinct",
    "C12_alphabetical_is_chronological",
    "C12_every_snapshot_is_kept",
    "C12_offline_run_never_overwrites",
    "C12_order_bound_is_sharp"
   ],
   "note": "Alphabetical order is chronological up to day 99999; C12_order_bound_is_sharp shows the bound is needed."
  },
  {
   "property": "C120",
   "status": "partial",
   "theorems": [
    "C120_single_row_or_column_refuted"
   ],
   "note": "REFUTED: squeeze removes the dimension of length 1, and every run raises ValueError at its first step as soon as a level other than 0 is given."
  },
  {
   "property": "C121",
   "status": "proved",
   "theorems": [
    "C121_closed_contours_have_the_higher_values_on_their_left",
    "C121_higher_values_on_the_left_in_the_plane",
    "C121_reversed_field_reverses_the_direction"
   ],
   "note": "On the mesh for any arithmetic; in the plane for real arithmetic and rising axes."
  },
  {
   "property": "C122",
   "status": "proved",
   "theorems": [
    "C122_order_of_the_vertices",
    "C122_direction"
   ],
   "note": "Real arithmetic; any solver."
  },
  {
   "property": "C123",
   "status": "partial",
   "theorems": [
    "C123_starting_vertex_refuted",
    "C123_contours_on_an_ellipse"
   ],
   "note": "REFUTED: the first vertex of a closed contour is counted twice; the outline of a square has orientation pi/2 or 0 according to the side at which it starts. Proved: on an exact ellipse the axes do not depend on the start."
  },
  {
   "property": "C124",
   "status": "partial",
   "theorems": [
    "C124_direction_refuted",
    "C124_starting_vertex",
    "C124_reversed_ellipse"
   ],
   "note": "REFUTED: the polygon of an exact circle has similarity 1 with its fitted ellipse when listed anticlockwise from the x axis and less than 0.7 when listed clockwise. Proved: the similarity for every starting vertex, and a bound for every fitted ellipse against itself reversed."
  },
  {
   "property": "C125",
   "status": "proved",
   "theorems": [
    "C125_what_closed_contours_enclose",
    "C125_what_closed_contours_enclose_on_the_mesh"
   ],
   "note": "In the plane: exact arithmetic, monotone axes, no grid value equal to the level. On the mesh, where a contour is the list of the sides it goes through: any arithmetic."
  },
  {
   "property": "C126",
   "status": "proved",
   "theorems": [
    "C126_closed_contours_enclose_an_extremum",
    "C126_closed_contours_enclose_an_extremum_on_the_mesh"
   ],
   "note": "As C125; on the mesh for every arithmetic whose comparison is irreflexive and transitive."
  },
  {
   "property": "C127",
   "status": "proved",
   "theorems": [
    "C127_closed_contours_are_nested_or_apart",
    "C127_closed_contours_are_nested_or_apart_on_the_mesh"
   ],
   "note": "As C125. Two levels in exact arithmetic, one level in any arithmetic."
  },
  {
   "property": "C128",
   "status": "proved",
   "theorems": [
    "C128_number_of_closed_contours",
    "C128_number_of_closed_contours_on_the_mesh"
   ],
   "note": "As C125."
  },
  {
   "property": "C129",
   "status": "proved",
   "theorems": [
    "C129_crossings_of_a_closed_contour",
    "C129_joined_crossings_on_the_mesh"
   ],
   "note": "In the plane: exact arithmetic, monotone axes, no grid value equal to the level. On the mesh, for any arithmetic, with connections along rows and columns only (which means of four values are above the level depends on rounding)."
  },
  {
   "property": "C13",
   "status": "partial",
   "theorems": [
    "C13_unsupported_format_reported_refuted",
    "C13_run_with_unsupported_format_refuted",
    "C13_storing_in_a_run",
    "C13_supported_formats_partial"
   ],
   "note": "REFUTED: an unsupported storage format is not reported; the snapshot silently vanishes."
  },
  {
   "property": "C130",
   "status": "proved",
   "theorems": [
    "C130_one_hill_one_contour",
    "C130_one_hill_one_contour_on_the_mesh",
    "C130_one_eddy_per_level"
   ],
   "note": "As C129; the statement about runs is for the arithmetic of the pipeline, with connections along rows and columns."
  },
  {
   "property": "C131",
   "status": "proved",
   "theorems": [
    "C131_eddies_enclose_an_extremum"
   ],
   "note": "Inside is the even-odd rule on the mesh (S_Enclose); points not above the level may be missing values."
  },
  {
   "property": "C132",
   "status": "proved",
   "theorems": [
    "C132_eddies_of_a_step_are_nested_or_apart"
   ],
   "note": "Any arithmetic; for two levels under the hypothesis that the mean of the four points of a cell does not depend on the order of addition (met by exact arithmetic)."
  },
  {
   "property": "C133",
   "status": "proved",
   "theorems": [
    "C133_number_of_eddies_of_a_step"
   ],
   "note": ""
  },
  {
   "property": "C134",
   "status": "partial",
   "theorems": [
    "C134_one_gaussian_one_contour",
    "C134_tilted_gaussian_refuted"
   ],
   "note": "REFUTED: a thin Gaussian along the diagonal has three closed contours of one level (5 x 5 points). Proved for every Gaussian that is circular or has its axes along the grid (C134_one_gaussian_one_contour). Real arithmetic."
  },
  {
   "property": "C135",
   "status": "partial",
   "theorems": [
    "C135_start_of_a_global_grid",
    "C135_start_of_a_global_grid_refuted"
   ],
   "note": "REFUTED: nothing joins the last column to the first, so an eddy on the seam has an open contour and is lost. Proved: the lines in all cells away from the two seams are the same (turned by 360 degrees), and exactly those in the cells of the two seams are lost or added. Real arithmetic."
  },
  {
   "property": "C136",
   "status": "partial",
   "theorems": [
    "C136_longitude_convention",
    "C136_longitude_convention_refuted",
    "C136_fails_near_longitude_zero_refuted"
   ],
   "note": "REFUTED: grid points are preselected within 3 degrees plus 5 percent of the mean longitude, so the summit inside a ring at longitudes 0 to 12 is missed and the same one at 360 to 372 is found; on a coarse grid the analysis raises ValueError near longitude 0 only. Proved: if each vertex has one nearest grid point and it is preselected under both conventions, only the reported longitude changes."
  },
  {
   "property": "C137",
   "status": "proved",
   "theorems": [
    "C137_unit_of_the_field"
   ],
   "note": "Exactness for the factor is a hypothesis (exact_for, filter_for, fit_for): met by exact arithmetic and, on binary floating point, by powers of two without under- or overflow."
  },
  {
   "property": "C138",
   "status": "partial",
   "theorems": [
    "C138_zero_of_the_field",
    "C138_zero_of_the_field_refuted",
    "C138_level_at_zero_refuted"
   ],
   "note": "REFUTED: the sign of an eddy is the sign of the mean of the field in it, so a hill below zero is recorded with sign -1 and with the lowest point of its rim in place of its summit; and a level that becomes zero is not looked at. Proved: the contour lines are the same for every constant, and the whole run is the same if all values of the field stay on one side of zero and no level is or becomes zero."
  },
  {
   "property": "C139",
   "status": "proved",
   "theorems": [
    "C139_highs_and_lows_alike"
   ],
   "note": ""
  },
  {
   "property": "C14",
   "status": "proved",
   "theorems": [
    "C14_snapshot_shape",
    "C14_levels_merged_as_specified",
    "C14_eddies_stay_whole"
   ],
   "note": "C14_snapshot_shape and C14_eddies_stay_whole need no proviso: they hold of every scan that returns. Under the no-collision proviso the scan returns and its table is the specified one."
  },
  {
   "property": "C140",
   "status": "partial",
   "theorems": [
    "C140_direction_of_the_axes",
    "C140_direction_of_the_axes_refuted"
   ],
   "note": "REFUTED: of two equal summits in one contour the first one in the order of storage is reported. Proved: if each vertex has one nearest grid point which is preselected, the sign is not zero and no other grid point has the value of the extremum, the result is the same in all four orders."
  },
  {
   "property": "C141",
   "status": "partial",
   "theorems": [
    "C141_first_vertex",
    "C141_first_vertex_refuted"
   ],
   "note": "REFUTED: grid points are preselected around the mean of the vertices, in which the first vertex counts twice, so a summit near the end of a long contour is found or missed. Proved: if each vertex has one nearest grid point and it is preselected around both means, the result is the same."
  },
  {
   "property": "C142",
   "status": "partial",
   "theorems": [
    "C142_sign_in_floating_point",
    "C142_values_of_one_sign",
    "C142_only_zeros",
    "C142_sign_in_floating_point_refuted"
   ],
   "note": "REFUTED: for 2^53, 1, 1, 1, -2^53, -1 added one by one in double precision the mean is 1/3 but the computed sign is -1 and the minimum is reported. Proved: the claim for every order of additions when the sum exceeds the bound of its rounding error, and without a margin when all values inside have one sign."
  },
  {
   "property": "C143",
   "status": "partial",
   "theorems": [
    "C143_stricter_criteria",
    "C143_ellipse_fit_refuted",
    "C143_two_levels_refuted"
   ],
   "note": "REFUTED twice: raising ellipse_fit admits contours (the similarity must not exceed it), and with several levels a contour refused by the stricter criteria no longer hides the contours inside it. Proved: with ellipse_fit lowered instead, the eddies found at one level with the stricter criteria are some of those found before, with the same columns in the same order."
  },
  {
   "property": "C144",
   "status": "partial",
   "theorems": [
    "C144_skipping_the_gaussian",
    "C144_two_levels_refuted"
   ],
   "note": "REFUTED for several levels: a contour that is only found without the fit hides the contours inside it at later levels. Proved at one level."
  },
  {
   "property": "C145",
   "status": "partial",
   "theorems": [
    "C145_backwards",
    "C145_backwards_refuted"
   ],
   "note": "REFUTED: when two eddies merge, one of the two tracks ends; backwards both continue the one eddy and share its track. Proved: when the motion is resolved in both directions (as in C96), two eddies share a track in one run exactly when they do in the other."
  },
  {
   "property": "C146",
   "status": "proved",
   "theorems": [
    "C146_length_in_doubles"
   ],
   "note": "math.dist is any function right to one unit in the last place (2^-1074 near zero) on numbers."
  },
  {
   "property": "C147",
   "status": "proved",
   "theorems": [
    "C147_similarity_in_doubles"
   ],
   "note": "Off by at most 1/20000 (the rounding to four decimals) plus 10^-6. math.dist as in C146; outside the range of lengths see C93."
  },
  {
   "property": "C148",
   "status": "proved",
   "theorems": [
    "C148_regions"
   ],
   "note": "The conditions are part of the property: each track of the region has one latest position (see C06) and radii are numbers. Which of two equally near tracks the search returns is not specified."
  },
  {
   "property": "C149",
   "status": "proved",
   "theorems": [
    "C149_small_noise",
    "C149_closed_contours",
    "C149_closed_outlines",
    "C149_means_matter"
   ],
   "note": "In real arithmetic. C149_means_matter shows that a margin from the values alone is not enough: in a cell with high values at two opposite corners noise can move the mean across the level and the lines are joined differently."
  },
  {
   "property": "C15",
   "status": "partial",
   "theorems": [
    "C15_never_fused_refuted",
    "C15_next_level_raises_refuted",
    "C14_levels_merged_as_specified"
   ],
   "note": "REFUTED: two eddies of a level that both replace the same earlier eddy are stored under one identifier; a further level then raises. C14_levels_merged_as_specified: true when no two eddies of one level claim the same earlier eddy."
  },
  {
   "property": "C150",
   "status": "proved",
   "theorems": [
    "C150_distances_and_radii_decide",
    "C150_moved_positions"
   ],
   "note": "The conditions are part of the property: one latest position per track, no eddy equally near to two tracks, radii are numbers. That the true great-circle distance does not change when 360 degrees are added to a longitude is a property of the distance function, which the model leaves open."
  },
  {
   "property": "C151",
   "status": "proved",
   "theorems": [
    "C151_small_errors_do_not_change_tracks"
   ],
   "note": "The size of the rounding errors of BallTree's haversine distance is not derived: delta is a parameter."
  },
  {
   "property": "C152",
   "status": "proved",
   "theorems": [
    "C152_noisy_gaussian",
    "C152_noisy_hill"
   ],
   "note": "In real arithmetic. For Gaussians that are not aligned with the axes C134_tilted_gaussian_refuted is a counterexample even without noise."
  },
  {
   "property": "C153",
   "status": "proved",
   "theorems": [
    "C153_every_hill_has_its_contour",
    "C153_as_many_contours_as_hills",
    "C153_hills_in_noise",
    "C153_eddies_of_a_run"
   ],
   "note": "In real arithmetic. Connectedness is along the sides of the grid and, in ambiguous cells, across the diagonal on the side of the mean of the cell. Points below the level that are enclosed by a hill (holes) are excluded by the hypothesis that the low points are connected."
  },
  {
   "property": "C16",
   "status": "partial",
   "theorems": [
    "C16_better_fit_kept_refuted",
    "C16_earlier_kept_without_gaussian"
   ],
   "note": "REFUTED: the columns hold similarities but are compared as errors, so the less similar detection is kept; without Gaussian fit the earlier one always is."
  },
  {
   "property": "C17",
   "status": "proved",
   "theorems": [
    "C17_only_coinciding_replaced"
   ],
   "note": ""
  },
  {
   "property": "C18",
   "status": "proved",
   "theorems": [
    "C18_every_contour_judged",
    "C18_verdict_unique",
    "C18_identified_iff_accepted"
   ],
   "note": "The numerical parts (fit, similarity, data lookup, optimiser, floating point) are arbitrary functions that may raise."
  },
  {
   "property": "C19",
   "status": "partial",
   "theorems": [
    "C19_resembles_ellipse_refuted",
    "C19_better_than_asked_never_identified"
   ],
   "note": "REFUTED: the comparison is inverted; a contour more similar to its ellipse than the criterion is never identified."
  },
  {
   "property": "C20",
   "status": "proved",
   "theorems": [
    "C20_no_missing_vertex_in_an_eddy",
    "C20_missing_vertex_not_accepted"
   ],
   "note": "Floating-point operations are only assumed to return NaN on a NaN argument."
  },
  {
   "property": "C21",
   "status": "partial",
   "theorems": [
    "C21_only_closed_refuted",
    "C21_verdict_from_measures_only"
   ],
   "note": "REFUTED: closedness is never tested; the verdict is a function of the measures."
  },
  {
   "property": "C22",
   "status": "partial",
   "theorems": [
    "C22_discarded_only_that_level_refuted",
    "C22_discarded_accumulate",
    "C22_identified_only_that_level"
   ],
   "note": "REFUTED for the discarded table, which accumulates since the last level with an eddy; proved for the identified table over every exception-free history."
  },
  {
   "property": "C23",
   "status": "partial",
   "theorems": [
    "C23_no_trace_refuted",
    "C23_leftovers_after_exception"
   ],
   "note": "REFUTED: eddies identified before the exception reappear in the next level's table."
  },
  {
   "property": "C24",
   "status": "proved",
   "theorems": [
    "C24_identifiers_from_zero"
   ],
   "note": ""
  },
  {
   "property": "C25",
   "status": "proved",
   "theorems": [
    "C25_nonzero_levels_in_order",
    "C25_selection_unique"
   ],
   "note": "Includes that a snapshot is the merging (C14) of the eddies kept at those levels."
  },
  {
   "property": "C26",
   "status": "proved",
   "theorems": [
    "C26_extremum_zero_iff_mean_zero"
   ],
   "note": "Exact (rational) arithmetic; the island reason itself is the fifth check of C18."
  },
  {
   "property": "C27",
   "status": "proved",
   "theorems": [
    "C27_extremum_of_the_eddy",
    "C27_raises_iff_no_value"
   ],
   "note": "Exact arithmetic; when the mean is exactly 0 the reported value is 0 (C26). Also: the analysis raises ValueError exactly when no valid value is inside."
  },
  {
   "property": "C28",
   "status": "proved",
   "theorems": [
    "C28_mask_is_filled_contour"
   ],
   "note": "binary_fill_holes modelled as iterated masked dilation from the border."
  },
  {
   "property": "C29",
   "status": "proved",
   "theorems": [
    "C29_window",
    "C29_window_is_the_box_with_the_margin",
    "C29_clamping_terminates"
   ],
   "note": "For non-negative margins (the code only uses \"auto\"); termination and bounds for every threshold."
  },
  {
   "property": "C30",
   "status": "proved",
   "theorems": [
    "C30_regular_grid_mapping"
   ],
   "note": "For every nearest-neighbour search that returns a nearest point."
  },
  {
   "property": "C31",
   "status": "partial",
   "theorems": [
    "C31_curvilinear_mapping_refuted",
    "C31_block_preselection_mapping"
   ],
   "note": "REFUTED: on a sheared grid the preselected points do not fill a block and unravel_index assigns a vertex the cell of another grid point. True when the preselected points fill a block of rows and columns."
  },
  {
   "property": "C32",
   "status": "proved",
   "theorems": [
    "C32_discrete_frechet_distance"
   ],
   "note": "real arithmetic; frames = nested calls the interpreter allows (see C35)"
  },
  {
   "property": "C33",
   "status": "partial",
   "theorems": [
    "C33_long_curves_refuted",
    "C33_distance_of_thinned_curves"
   ],
   "note": "REFUTED: when both curves have more than 300 points vertices are dropped; the result can be 0 for curves at any distance. Proved: the result is the discrete Frechet distance of the curves left after thinning."
  },
  {
   "property": "C34",
   "status": "proved",
   "theorems": [
    "C34_nonnegative",
    "C34_symmetric",
    "C34_identical_curves",
    "C34_first_points",
    "C34_last_points",
    "C34_zero_means_equal",
    "C34_triangle"
   ],
   "note": "real arithmetic"
  },
  {
   "property": "C35",
   "status": "partial",
   "theorems": [
    "C35_recursion_limit_refuted",
    "C35_thinning_terminates",
    "C35_frames_needed",
    "C35_short_curves_never_overflow",
    "C35_empty_curve"
   ],
   "note": "REFUTED: thinning stops when ONE curve has at most 300 points, so 1000 points against 2..300 points exceed a limit of 1000 nested calls. Proved: thinning always ends and the number of nested calls is exactly the sum of the remaining lengths less one; curves of at most 300 points never overflow."
  },
  {
   "property": "C36",
   "status": "proved",
   "theorems": [
    "C36_between_0_and_1",
    "C36_symmetric",
    "C36_curve_with_itself",
    "C36_moving_both",
    "C36_turning_both",
    "C36_scaling_both",
    "C36_value"
   ],
   "note": "real arithmetic with the rounding to four decimals (half to even) modelled"
  },
  {
   "property": "C37",
   "status": "proved",
   "theorems": [
    "C37_nonnegative",
    "C37_two_points",
    "C37_additive",
    "C37_direction",
    "C37_translation",
    "C37_rotation",
    "C37_scaling",
    "C37_chord"
   ],
   "note": "real arithmetic"
  },
  {
   "property": "C38",
   "status": "proved",
   "theorems": [
    "C38_defined_between_0_and_1",
    "C38_increases_with_elongation",
    "C38_scaling",
    "C38_signs",
    "C38_rounded"
   ],
   "note": "The rounded version holds for every monotone rounding exact on 0 and 1 (IEEE binary64 is shown to be one) when the square of the larger axis does not underflow to 0."
  },
  {
   "property": "C39",
   "status": "partial",
   "theorems": [
    "C39_mirror_north_south_refuted",
    "C39_half_turn_refuted",
    "C39_defined",
    "C39_nonnegative",
    "C39_single_place",
    "C39_there_and_back",
    "C39_whole_turns",
    "C39_mirror_east_west",
    "C39_mirror_north_south",
    "C39_reversed",
    "C39_restart"
   ],
   "note": "REFUTED in one case: a vertex at 0 E 0 N breaks the north-south symmetry. Everything else proved as stated, the mirror theorem for contours without such a vertex; also that the half-turn exception is needed."
  },
  {
   "property": "C40",
   "status": "proved",
   "theorems": [
    "C40_fitted_ellipse",
    "C40_points_parametrised"
   ],
   "note": "for every solver, real arithmetic; parabolas (zero turned coefficient) give non-finite numbers, see C70"
  },
  {
   "property": "C41",
   "status": "proved",
   "theorems": [
    "C41_exact_ellipse_recovered"
   ],
   "note": "for every exact solver of the normal equations; real arithmetic"
  },
  {
   "property": "C42",
   "status": "partial",
   "theorems": [
    "C42_circle_refuted",
    "C42_slight_tilt_refuted",
    "C42_direction_of_major_axis",
    "C42_exact_ellipse_direction"
   ],
   "note": "REFUTED for circles (NaN) and for tilts below the tolerance (the returned ellipse is upright, the angle is not). Proved for every other fitted ellipse."
  },
  {
   "property": "C43",
   "status": "proved",
   "theorems": [
    "C43_value_at_centre",
    "C43_sign_everywhere",
    "C43_extremum_only_at_centre",
    "C43_point_symmetric",
    "C43_period_pi",
    "C43_profile",
    "C43_e_folding",
    "C43_array"
   ],
   "note": "real arithmetic"
  },
  {
   "property": "C44",
   "status": "partial",
   "theorems": [
    "C44_circle_refuted",
    "C44_feasible_start",
    "C44_mean_spacing_x",
    "C44_mean_spacing_y"
   ],
   "note": "REFUTED for exact circles, whose orientation is NaN (C42): no bounds contain it. Proved for every eddy with a finite orientation."
  },
  {
   "property": "C45",
   "status": "partial",
   "theorems": [
    "C45_zero_means_perfect_refuted",
    "C45_nonnegative",
    "C45_zero_iff_constant_misfit",
    "C45_perfect_fit_is_zero",
    "C45_sizes"
   ],
   "note": "REFUTED: the residual is std*mean of the misfit, so a Gaussian off by the same constant everywhere has residual 0. Proved: it vanishes exactly when the misfit is constant."
  },
  {
   "property": "C46",
   "status": "proved",
   "theorems": [
    "C46_positive",
    "C46_symmetric",
    "C46_decreasing",
    "C46_at_most_260"
   ],
   "note": "real arithmetic"
  },
  {
   "property": "C47",
   "status": "partial",
   "theorems": [
    "C47_unfiltered_partial",
    "C47_space_ignores_option",
    "C47_refuted",
    "C47_time_no_field"
   ],
   "note": "REFUTED: with filter='space' (the default) the decorator filters the raw snapshot and nan_treatment has no effect (C47_space_ignores_option, witness C47_refuted); it is applied only without a filter and before 'both', and 'time'/'both' return None instead of a field."
  },
  {
   "property": "C48",
   "status": "partial",
   "theorems": [
    "C48_refuted",
    "C48_mode_refuted",
    "C48_rejected_partial"
   ],
   "note": "REFUTED: every unknown filter name, and every unknown convolution mode, silently passes the data on unfiltered. C48_rejected_partial says exactly what is rejected under 'space' and 'both'."
  },
  {
   "property": "C49",
   "status": "proved",
   "theorems": [
    "C49_meridional",
    "C49_zonal",
    "C49_linear"
   ],
   "note": "Real arithmetic; NaN is None. Linearity for fields with the same missing cells."
  },
  {
   "property": "C50",
   "status": "proved",
   "theorems": [
    "C50_succeeds",
    "C50_window",
    "C50_constant",
    "C50_border",
    "C50_linear",
    "C50_shift",
    "C50_spike",
    "C50_default_filter"
   ],
   "note": "Real arithmetic; astropy's convolve is modelled by its documented meaning (normalised kernel, NaN left out, zeros beyond the border)."
  },
  {
   "property": "C51",
   "status": "proved",
   "theorems": [
    "C51_dimensions",
    "C51_no_time",
    "C51_grid",
    "C51_shape_rejected",
    "C51_missing",
    "C51_variables"
   ],
   "note": "Names are strings; the dataset is any function from names to arrays."
  },
  {
   "property": "C52",
   "status": "partial",
   "theorems": [
    "C52_refuted",
    "C52_no_pair_partial",
    "C52_other_names_partial"
   ],
   "note": "REFUTED: data variables whose names merely contain 'lon' and 'lat' (longwave, latent_heat) replace the coordinates. True when the dataset lacks such a pair."
  },
  {
   "property": "C53",
   "status": "partial",
   "theorems": [
    "C53_record_columns",
    "C53_discarded_columns",
    "C53_unexpected_shape_raises_refuted"
   ],
   "note": "REFUTED in its last clause: an n x 2 property silently replaces the contour columns. The fixed columns are proved."
  },
  {
   "property": "C54",
   "status": "proved",
   "theorems": [
    "C54_bar",
    "C54_bar_never_shrinks",
    "C54_last",
    "C54_percent",
    "C54_percent_never_shrinks"
   ],
   "note": "Binary64 rounding of every operation (Flocq), for fewer than 2^53 steps."
  },
  {
   "property": "C55",
   "status": "partial",
   "theorems": [
    "C55_refuted",
    "C55_python3_partial",
    "C55_python2_partial",
    "C55_versions_partial"
   ],
   "note": "REFUTED: the version is compared as strings, so Python 3.2 to 3.9 are accepted; of Python 3 exactly 3.0 and 3.1 are refused, and of the versions with a one-digit major number exactly those below 3.2."
  },
  {
   "property": "C56",
   "status": "partial",
   "theorems": [
    "C56_kept_apart_partial",
    "C56_apart_when_a_below_b_partial",
    "C56_refuted"
   ],
   "note": "REFUTED: when b <= a two eddies can be left in the very same place (witness: grid of one point). Proved: any two eddies are far enough apart or in the same place, and far enough apart whenever a < b, for every random sequence and grid."
  },
  {
   "property": "C57",
   "status": "partial",
   "theorems": [
    "C57_refuted",
    "C57_refuted_never_stops",
    "C57_ends_iff_partial"
   ],
   "note": "REFUTED: the loop goes on for ever once it has made 10000 attempts; on a grid of one point checkposition never returns. Proved: the loop ends iff one of the first 9999 attempts is well placed."
  },
  {
   "property": "C58",
   "status": "partial",
   "theorems": [
    "C58_square_partial",
    "C58_layout_partial",
    "C58_returns",
    "C58_refuted"
   ],
   "note": "REFUTED: on a grid that is not square the array agrees with neither orientation. Proved: for square grids cell (i, j) holds the sum of the Gaussians at (x_j, y_i), and the exact layout for every grid."
  },
  {
   "property": "C59",
   "status": "partial",
   "theorems": [
    "C59_refuted",
    "C59_empty_partial"
   ],
   "note": "REFUTED: reconstruct_field raises ValueError for every non-empty set of eddies. Proved: it returns the zero field for no eddies."
  },
  {
   "property": "C60",
   "status": "proved",
   "theorems": [
    "C60_same_surface"
   ],
   "note": "The generator's angle t is the fit's angle -t."
  },
  {
   "property": "C61",
   "status": "proved",
   "theorems": [
    "C61_shape",
    "C61_half_at_half_width",
    "C61_decreases_with_distance",
    "C61_default_centre",
    "C61_moving"
   ],
   "note": "real arithmetic, fwhm non-zero"
  },
  {
   "property": "C62",
   "status": "proved",
   "theorems": [
    "C62_king_move",
    "C62_all_directions"
   ],
   "note": "For every draw, position and step; each of the eight neighbours is reached by exactly one draw."
  },
  {
   "property": "C63",
   "status": "proved",
   "theorems": [
    "C63_vertices_lie_where_the_level_is_met"
   ],
   "note": "Real arithmetic for the position; the traced edges are those of C65 and C76, proved for any arithmetic."
  },
  {
   "property": "C64",
   "status": "partial",
   "theorems": [
    "C64_tracing_stays_inside_the_arrays",
    "C64_empty_mesh_refuted"
   ],
   "note": "REFUTED for a grid without points: z[0] is read all the same. Proved for every grid with at least one point, any field (also with NaN), any contents of the uninitialised work array. Integers are unbounded in the model."
  },
  {
   "property": "C65",
   "status": "proved",
   "theorems": [
    "C65_contours_close_or_join_the_boundary",
    "C65_closed_contours_repeat_their_first_vertex"
   ],
   "note": "For every grid with at least one point and any arithmetic; termination is the explicit bound on fuel."
  },
  {
   "property": "C66",
   "status": "proved",
   "theorems": [
    "C66_vertices_and_codes_correspond"
   ],
   "note": "For every grid with at least one point (C64 says there is a result)."
  },
  {
   "property": "C67",
   "status": "proved",
   "theorems": [
    "C67_colour_of_reason"
   ],
   "note": "For every reason of the detection model (C18)."
  },
  {
   "property": "C68",
   "status": "partial",
   "theorems": [
    "C68_nearest_of_whole_grid_refuted",
    "C68_coarse_grid_raises_refuted",
    "C68_nearest_when_preselected"
   ],
   "note": "REFUTED: vertices farther than 3 degrees + 5 percent from the mean vertex are assigned to the edge of the preselection; on a coarse grid the preselection is empty and ValueError is raised. True for vertices whose nearest grid point is preselected."
  },
  {
   "property": "C69",
   "status": "proved",
   "theorems": [
    "C69_extremum_at_a_grid_point"
   ],
   "note": "Composition of the mapping, the window and the mask; exact arithmetic."
  },
  {
   "property": "C70",
   "status": "partial",
   "theorems": [
    "C70_hyperbola_refuted",
    "C70_parabola_refuted",
    "C70_ellipse_finite",
    "C70_finite_exactly"
   ],
   "note": "REFUTED: six points of a hyperbola give axes 1 and 1; points of a parabola give infinities. Proved: a fitted ellipse always gives finite positive axes, and exactly which conics give a finite result."
  },
  {
   "property": "C71",
   "status": "proved",
   "theorems": [
    "C71_polar_coordinates",
    "C71_cap"
   ],
   "note": "real arithmetic"
  },
  {
   "property": "C72",
   "status": "partial",
   "theorems": [
    "C72_latitude_first_partial",
    "C72_longitude_first_refuted"
   ],
   "note": "REFUTED: with dimensions (lon, lat) every cell gets the coordinates of the transposed cell (or the shapes differ). True with latitude first."
  },
  {
   "property": "C73",
   "status": "partial",
   "theorems": [
    "C73_refuted",
    "C73_first_partial",
    "C73_levels_apart_partial"
   ],
   "note": "REFUTED: contours use names[linspace index], the legend names[level number]; they agree for the first level only. Different levels do get different colours."
  },
  {
   "property": "C74",
   "status": "partial",
   "theorems": [
    "C74_refuted",
    "C74_rejected_partial",
    "C74_count"
   ],
   "note": "REFUTED: the ValueError can never be raised; lists and tuples give TypeError. Proved: everything but an integer is rejected, and an integer n gives max(0, n) eddies."
  },
  {
   "property": "C75",
   "status": "partial",
   "theorems": [
    "C75_refuted",
    "C75_centre_without_margin_partial",
    "C75_drawn_centre_partial"
   ],
   "note": "REFUTED: the margin is put inside the range of the axes, so eddies move. Proved: without margin the centre is the grid point, on an equally spaced grid."
  },
  {
   "property": "C76",
   "status": "proved",
   "theorems": [
    "C76_every_crossed_side_is_visited_once"
   ],
   "note": "Any arithmetic."
  },
  {
   "property": "C77",
   "status": "proved",
   "theorems": [
    "C77_ambiguous_cells_follow_the_mean"
   ],
   "note": "Real arithmetic. With rounding the mean depends on the order of the additions; the decision is then the one for the side from which the cell is entered first (lemma master)."
  },
  {
   "property": "C78",
   "status": "proved",
   "theorems": [
    "C78_result_does_not_depend_on_uninitialised_memory"
   ],
   "note": "Any arithmetic."
  },
  {
   "property": "C79",
   "status": "proved",
   "theorems": [
    "C79_table_of_a_run",
    "C79_every_row_is_a_vertex_of_an_accepted_contour"
   ],
   "note": "The whole program: data selection, filter, contour tracer, detection, level merging, tracking. Hypotheses: the query answers with a nearest point, the fitted parameters are five numbers, the earlier runs of the process returned."
  },
  {
   "property": "C80",
   "status": "proved",
   "theorems": [
    "C80_one_level_loses_nothing"
   ],
   "note": "Same hypotheses; the non-zero levels requested are one."
  },
  {
   "property": "C81",
   "status": "proved",
   "theorems": [
    "C81_runs_are_independent"
   ],
   "note": "Earlier runs that raised are excluded, see C83."
  },
  {
   "property": "C82",
   "status": "proved",
   "theorems": [
    "C82_only_the_steps_analysed_matter"
   ],
   "note": "For fitted surfaces that are arrays (non-negative dimensions)."
  },
  {
   "property": "C83",
   "status": "partial",
   "theorems": [
    "C83_a_failed_run_leaks_refuted",
    "C81_runs_are_independent"
   ],
   "note": "REFUTED: an eddy found before the exception is reported again by the next run of any object in the process. True when no earlier run raised (C81)."
  },
  {
   "property": "C84",
   "status": "proved",
   "theorems": [
    "C84_longer_runs_extend_shorter_ones"
   ],
   "note": "Same hypotheses as C79; 0 <= t0 < tf1 <= tf2."
  },
  {
   "property": "C85",
   "status": "proved",
   "theorems": [
    "C85_one_more_step"
   ],
   "note": "Same hypotheses as C79; the run up to the step has found eddies and so has the step. The condition on collisions is part of the property (C15 refutes the property without it); it holds trivially for one level."
  },
  {
   "property": "C86",
   "status": "proved",
   "theorems": [
    "C86_when_a_run_returns"
   ],
   "note": "Same hypotheses as C79; 0 <= t0 <= tf, 0 < tf, at least one snapshot is kept (nt >= 1)."
  },
  {
   "property": "C87",
   "status": "proved",
   "theorems": [
    "C87_offline_files"
   ],
   "note": "Fitted parameters are five numbers, the earlier runs of the process returned."
  },
  {
   "property": "C88",
   "status": "proved",
   "theorems": [
    "C88_vertices_in_double_arithmetic"
   ],
   "note": "Doubles as Flocq's FLT(-1074, 53) with round to nearest even: gradual underflow included, overflow, infinities and NaN not."
  },
  {
   "property": "C89",
   "status": "partial",
   "theorems": [
    "C89_vertices_inside_the_grid_refuted",
    "C89_vertices_stay_on_their_side_partial"
   ],
   "note": "REFUTED: with columns at 1 and 2^-60 a vertex is put at 0, outside the grid, because x1 - x0 is rounded. True when the differences of neighbouring coordinates are doubles."
  },
  {
   "property": "C90",
   "status": "partial",
   "theorems": [
    "C90_missing_first_vertex_refuted",
    "C90_calls_partial",
    "C90_calls_300",
    "C90_exact_arithmetic"
   ],
   "note": "REFUTED: when the first vertex of a curve is NaN nothing is remembered and the number of evaluations is at least 3^n for curves of more than n points. When the first vertices are numbers it is exactly 3nm - 2n - 2m + 2. C90_exact_arithmetic: this model and the one of C32-C37 compute the same distance."
  },
  {
   "property": "C91",
   "status": "partial",
   "theorems": [
    "C91_distance_of_curves_with_missing_vertices_refuted",
    "C91_similarity_of_curves_with_missing_vertices"
   ],
   "note": "REFUTED for frdist: as soon as the first vertices are numbers the distance is a number, that of the curves with all distances to missing vertices left out. True of compute_similarity (math.dist returns NaN for NaN coordinates)."
  },
  {
   "property": "C92",
   "status": "proved",
   "theorems": [
    "C92_accuracy_of_the_distance"
   ],
   "note": "np.linalg.norm as the rounded root of the rounded sum of the rounded squares."
  },
  {
   "property": "C93",
   "status": "partial",
   "theorems": [
    "C93_tiny_curve_refuted",
    "C93_similarity_range",
    "C93_similarity_symmetric",
    "C93_curve_with_itself_partial"
   ],
   "note": "REFUTED: for a curve shorter than 2^-538 the product of the lengths underflows and the similarity with itself is NaN. The range and the symmetry hold for all curves; 1 for a curve with itself when its length is between 2^-500 and 2^500."
  },
  {
   "property": "C94",
   "status": "partial",
   "theorems": [
    "C94_refuted",
    "C94_later_fields_partial",
    "C94_first_field_partial",
    "C94_no_margin_partial"
   ],
   "note": "REFUTED for the first field: positions are checked on the axes that were given but drawn on the stretched axes of the field. The later fields are as stated (eddies in one place only when b <= a, see C56); with margin 0 on equally spaced axes all of them."
  },
  {
   "property": "C95",
   "status": "partial",
   "theorems": [
    "C95_no_time_dimension_refuted",
    "C95_like_a_repeated_field_partial"
   ],
   "note": "REFUTED: without tf (or with tf = 0) time_tracking raises KeyError on data without a time dimension. With tf = n the outcome is that of a series that repeats the field n times."
  },
  {
   "property": "C96",
   "status": "proved",
   "theorems": [
    "C96_tracks_follow_the_eddies"
   ],
   "note": "resolved and named_in_order (S_Motion.v) are the two sides of the statement; the detections are arbitrary."
  },
  {
   "property": "C97",
   "status": "partial",
   "theorems": [
    "C97_steady_field_refuted",
    "C97_a_steady_field_has_steady_tracks_partial"
   ],
   "note": "REFUTED: an eddy of radius 0 (a contour whose fitted or computed radius vanishes) starts a new track at every step. True for eddies with positive radius, pairwise apart, one main row for every identifier, and at least one eddy."
  },
  {
   "property": "C98",
   "status": "partial",
   "theorems": [
    "C98_moved_along_a_parallel_refuted",
    "C39_whole_turns",
    "C99_accuracy_of_the_area"
   ],
   "note": "REFUTED: a triangle with sides of one to two degrees has area 0 near 0E 0N and a positive area 90 degrees to the east. Whole turns change nothing (C39_whole_turns), and the area is accurate within the bound of C99 wherever the contour is."
  },
  {
   "property": "C99",
   "status": "proved",
   "theorems": [
    "C99_accuracy_of_the_area",
    "C99_defined"
   ],
   "note": "Real arithmetic. The swept area is an integral (S_Area2.v), with the distance linear in the azimuth between two vertices."
  }
 ]
}