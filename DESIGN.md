# A Rocq model of trackeddy

`/repo` is josuemtzmo/trackeddy (Python plus one C extension).  `/verif/rocq/theories`
holds a model of that code in Rocq (Coq 8.16.1) and machine-checked theorems about the model.
`properties.jsonl` lists the properties in English, `MANIFEST.json` maps them to theorem names,
`seeded/LOG.jsonl` records the wrong programs the theorems were tried on.

## 1. Shape of the development

| kind | files | content |
|---|---|---|
| model | `M_*.v` | Gallina functions, one per function of the code, each with a comment citing file and lines |
| specification | `S_*.v` | small independent definitions used to state the properties (no use of model helpers) |
| proofs | `L_*.v` | lemmas |
| properties | `P_*.v` | the property theorems, their `Print Assumptions`, and concrete `Example`s meeting their hypotheses |

Python exceptions are values (`Err exn`).  Loops whose termination is not obvious carry fuel; running out of
fuel is a separate error value that theorems show to be unreachable, or reachable (a finding).

### Numbers

* Table and decision code (`utils.py`, `_detect_one_level`, masks, windows) uses integers and `num`
  (`NaN` or a rational).  Comparisons with `NaN` are false, as in IEEE/numpy.  Infinities are not modelled.
* Geometry (`geometry.py`, `physics.py`, filters, Gaussian generator) uses the real numbers of the standard library:
  exact arithmetic instead of floating point.  This is the largest simplification.  Results about rounded
  arithmetic: C38 (every monotone rounding exact on 0 and 1), C54, C88, C89, C90-C93, C142, C146 and C147 (binary64 through Flocq).
* `cntr.c` and `extract_contours` are modelled over an arbitrary number type with arbitrary `+ - * /` and an arbitrary
  comparison: C64, C65, C66, C76, C78 hold for doubles with NaN, infinities and rounding.  C63 and C77 speak of positions
  and means and take the reals; C88 and C89 speak of the positions in double arithmetic.

### Oracles

Things decided outside the code are parameters of the model (Section variables, so they become universally
quantified premises of the theorems, never axioms): haversine distance, the answer of `BallTree.query`
(constrained only by "returns a nearest point"), the optimiser, random draws, `np.linalg.solve` (constrained only by
"solves the normal equations").

### pandas

`pandas` is not pinned (`install_requirements.txt`).  `MultiIndex` is modelled with the explicit list
`levels[0]`, because `utils.py` reads `index.levels[0]`, which may hold labels that no row uses.  `pd.concat` of two
MultiIndexes either keeps unused labels (2.1 and newer) or drops them (older): the model has a boolean parameter and
the theorems hold for both values.

## 2. Plan per property

"refute" means that the property is false of the faithful model: a `_refuted` theorem exhibits a witness and a
companion theorem states what does hold.  Such properties are `partial` in the manifest.

| id | model | proof |
|---|---|---|
| C01-C04 | `M_Tables.v`: `track_online`, `_merge_reindex_eddies`, `_update_counter`, rename, `time_tracking` | invariant over the list of snapshots |
| C05 | `_detect_nearest` + renaming, query oracle | case analysis on the step, premise "query returns a nearest point" |
| C06 | same | refute for every distance function; true if the snapshot's links are distinct |
| C07 | `unlink_eddies_in_previous_times` with `levels[0]` semantics | refute; the result does not depend on `ntimes` when two settings both finish |
| C08, C09 | `xs(time)` raises `KeyError` on a missing time | refute; exact condition for success |
| C10 | `time_tracking` with `tf=None` | refute; true for at most one non-empty step |
| C11 | offline branch | refute; exact list of files written |
| C12 | `'{0:05}'` formatting on decimal digits | injectivity by induction on digits |
| C13 | `store_snapshot` | refute with witness |
| C14, C15, C17 | `_update_better_eddy`, `_merge_reindex_eddies`, fold over levels | invariant over the list of levels; C15 refute |
| C16 | comparison of the two "error" columns | refute; the opposite is proved |
| C18 | `_detect_one_level` with decorators | decision specification as first failing check; induction over contours |
| C19 | similarity comparison | refute |
| C20 | NaN propagation through area | lemma on `num` sums |
| C21 | no closedness check | refute |
| C22, C23 | decorator state machine | refute; exact description of the leak |
| C24 | decorator state machine | invariant |
| C25 | level filter | induction |
| C26, C27 | `_mask_data_in_contour` | induction over cells, rationals |
| C28 | `binary_fill_holes` as flood fill from the border | soundness and completeness of the flood fill against an inductive reachability relation |
| C29 | `_get_data_in_contour` | linear arithmetic, termination by measure |
| C30, C31 | `_data_in_contour` | index arithmetic on rectangles; C31 refute |
| C32-C35 | `frdist`, `_c` with memo table | memo correctness invariant; couplings as an inductive relation; C33, C35 refute |
| C36, C37 | `compute_similarity`, `arc_length` | reals |
| C38 | `eccentricity` | reals, and Flocq rounding for the last part |
| C39, C71 | `area_latlon_polygon` | reals, trigonometry; C39 refute in one case |
| C40-C42, C70 | `fit_ellipse` given a solution of the normal equations | reals, conic algebra; C42, C70 refute |
| C43-C45 | `gaussian`, `construct_bounds`, `gaussian_residual` | reals; C44 refute for circles, C45 refute in one direction |
| C46 | `approx_RD_lat` | reals |
| C47, C48 | `filter_data`, `_filter_data_`, `_space_filter` | case analysis; refute |
| C49, C50 | `_space_filter` | finite sums over the reals with NaN |
| C51, C52, C72 | coordinate identification on strings | induction over names; C52, C72 refute |
| C53 | `Eddy.to_dict` | shape dispatch; last clause refute |
| C54, C55 | `Printer` | binary64 arithmetic; C55 refute |
| C56, C57 | `checkposition` with the random stream as input | invariant; refute |
| C58, C59 | `assemble_field`, `reconstruct_field` | index arithmetic; refute for non-square |
| C60, C61, C62 | generator formulas | reals / case analysis |
| C63-C66, C76-C78 | `cntr.c` single-level path, `extract_contours` | see below |
| C67, C73 | reason/colour tables | finite case analysis; C73 refute |
| C68, C69 | composition of `_data_in_contour`, window and mask | index arithmetic; C68 refute |
| C79-C83 | `M_Pipeline.v`: a run as a whole, state of the decorators included | composition of the invariants of tracking (C01-C04), level merging (C14), detection (C18, C24) and contour tracing (C64); C83 refute |
| C84-C87 | `M_Pipeline.v`; single steps (`alone`) and runs (`run_returns`) in `S_Process.v` | C01, C05, C08/C09, C11 and C14 for the detection function of the whole program, whose frames are the tables of runs of one step |
| C88, C89 | the tracer with the operations of double (`S_Double.v`: real operation, then rounding to FLT(-1074, 53)) | monotonicity of rounding keeps the interpolation weight in [0, 1]; relative error of each operation (Flocq); C89 refuted by a concrete grid of two by two points |
| C90-C93 | `M_FrechetFloat.v`: `_c`, `frdist`, `arc_length`, `compute_similarity` over floats with NaN and infinity, Python's `max`/`min`, overflow and a count of the calls of `_c`; `math.dist` is an oracle | values: induction over the memo table for arbitrary distances; calls: the table is filled row by row, exact count; NaN: nothing is ever memoised, lower bound by the recursion tree; accuracy: error of one norm (Flocq), then monotonicity of the min-max in the distances |
| C94 | `assemble_field` with `checkposition` | the positions accepted by `checkposition` (C56) followed through `pass_args` to the centres drawn; refute for the first field |
| C95-C97 | `M_Pipeline.v`, `M_Tables.v`; motion of eddies specified in `S_Motion.v` | C96: induction over the steps, each eddy is matched to its own last position; C97 is C96 for equal fields through `M_Pipeline.v`; C95 equality of runs, refute without `tf` |
| C107 | `timepercentprint` with every operation rounded | relative errors (Flocq) |
| C98, C99 | `area_latlon_polygon` (`M_AreaR.v`); swept area as an integral in `S_Area2.v` (Coquelicot's `RInt`) | C98 refute; C99 the integral of one segment in closed form, then |sin x - x| <= |x|^3/6 |
| C100-C102 | `M_Crash.v`: an offline run as a sequence of file operations (open for writing, append a piece); a stop is a prefix of it | C100 induction over the files; C101 opening a file for writing empties it; C102 refuted with C11/C87, partial through C87 |
| C103-C106 | `trace` (`M_Extract.v`); lines as a set in `S_Lines.v` | C103: the walk visits every crossed side once (C76) and each step stays in a cell; counting gives the converse. C104-C106 from the set of lines, not from the walk |
| C108, C109, C111, C113, C114 | `tracking` (`M_Pipeline.v`), arguments in `M_Arguments.v` | C108, C109: the loop over the steps. C111: no side of the mesh is crossed, so the tracer returns nothing and the level changes no state. C113, C114: the merging specification (C14) on equal or far levels |
| C110 | `plot_in_level`, `plot_multilevel` (`M_Figures.v`) on the tables of `M_Detect.v` | the tables of a clean history are known exactly (C17-C22); grouping by label |
| C112 | `trace`; cells in `S_Lines2.v` | from C103: each line joins two sides of one cell, so only its corners matter |
| C120 | `M_Pipeline.v` | evaluation of the first step |
| C115-C117 | `trace`, `M_Pipeline.v`; borders, outlines and columns in `S_Border.v` | C115: a curve that does not close ends on the border (C65), where no side is crossed. C116: two values on different sides give a crossed side on the way between them (C76). C117: from C79 and the definition of the extremum |
| C121 | `trace`; sides of the way in `S_Turn.v` | the invariant of the tracer (`L_Cntr9.v`) also says that a closed curve starts with the higher end of its side on the left and that every step keeps it there; in a cell the sign of the cross product of the middles of the sides decides that of the vertices, because the axes rise |
| C122, C123, C124 | `fit_ellipse`, `compute_similarity`; polygons on circles in `S_Ring.v` | sums do not depend on the order; witness: outline of a square, solved exactly. Every coupling of a clockwise and an anticlockwise list passes a pair whose numbers add up to a given value within one, so two nearly opposite points are coupled |
| C125, C126 | `trace`; inside and outside in `S_Enclose.v` | the number of crossings of a ray changes by an odd number from one grid point to a neighbour exactly if the curve goes through their side, because the curve goes straight through every side (`L_Loop.v`, from C121); the highest (or lowest) point inside cannot be lower than a neighbour outside |
| C127, C128 | `trace` | going along a curve, the ends above its level are never separated by a curve of a lower level (in an ambiguous cell because the mean of the cell is above both levels), nor are the ends below by one of a higher level; so one of the four regions given by two curves has no side leaving it and is empty (`L_Nest.v`). Points just inside different curves are different |
| C129, C130 | `trace`, `tracking` | going along a curve, consecutive ends on one side of the level are equal, neighbours or across an ambiguous cell on the side of its mean; conversely what a closed curve encloses does not change along connected points (`L_Hill.v`), so two crossed sides with connected ends are separated by the same closed curves. With one region on each side every crossed side lies on every curve, and no side is visited twice. `contour_lines` (`S_Pipeline.v`) carries the facts needed to a whole run |
| C131, C132, C133 | `tracking` | `contour_lines` (`S_Pipeline.v`) says of all contours of a level that they visit every crossed side once, have the higher side to the left and go round the middle of ambiguous cells according to its mean; with a border on one side of the level they are closed, so the lemmas behind C126-C128 apply to the contours of every level of a run. For two levels the regions of the higher one are inside those of the lower one |
| C134 | `trace`, `gaussian`; `S_Peak.v` | an aligned Gaussian decreases away from the nearest row and the nearest column, so the points beyond a level are star-shaped along rows and columns and connected, and so are the others if the border is one of them; then C130. Refute for tilted ones: three points of a diagonal beyond the level, the means of the cells between them not |
| C135 | `trace`; `S_Seam.v` | from C112, which cells the rolled grid has; refute: a summit in the first column |
| C136 | `data_in_contour`; `S_Convention.v` | companion from C30 (the cells found are the nearest ones); refute: a ring near longitude 0 and a coarse grid there |
| C137 | `tracking`; `S_Units.v` | every stage commutes with a change of values that keeps their order (`L_Units.v`), and the table functions with any change of the columns they do not read (`L_Columns.v`) |
| C138 | `tracking`; `S_Units.v` | companion as C137, where the change also keeps the side of zero; refute: a hill moved below zero, a level moved to zero |
| C139 | `data_in_contour`; `S_Reverse.v` | each stage commutes with the change of sign; the cells depend on the order of the vertices only by a permutation |
| C140 | `data_in_contour`; `S_Turned.v` | companion: the mask and the window turn with the axes, a unique extremum is found in every order; refute: two equal summits |
| C141 | `data_in_contour`; `S_Start.v` | companion: the result depends only on the set of grid cells; refute: a long contour with its summit at one end |
| C142 | `mask_data_in` (M_MaskFloat.v, any binary format, any tree of additions); `S_MaskFloat.v` | companion: induction over the tree of additions with the error bound of Flocq; refute: six values that cancel |
| C143 | `settings`, `detect_snapshot`; `S_Strict.v` | companion: every check that passes with the stricter criteria passes with the laxer ones; refute: ellipse_fit, two levels |
| C144 | `settings`, `detect_snapshot`; `S_Skip.v` | companion: fewer checks, same columns; refute: two levels, the fit fails at the lower one |
| C145 | `run`; `S_Backwards.v` (the tracker with the series reversed) | companion: C96 in both directions; refute: two eddies that merge |
| C146 | `farc` of `M_FrechetFloat.v`; `S_Length.v` (length of a polyline, accuracy of `math.dist`) | induction over the segments with a growing relative error; the first addition is exact |
| C147 | `sim64`; `S_Frechet.v`, `S_Length.v` | C92 and C146, then relative errors of product, root and quotients; the clip and the rounding to four decimals by cases |
| C148 | `time_tracking` of `M_Tables.v` with two detection functions; `S_Region.v` | names of all eddies of a run by C05 step by step; then induction over the steps: tracks never cross the border and correspond one to one |
| C149 | `trace` (`M_Extract.v`); noise and moved vertices in `S_Noise.v` | from C103: which sides are joined depends only on the points above the level and, in ambiguous cells, the means; the crossing of a side is a quotient whose change is bounded; closed contours (`P_NoiseLoop.v`) correspond because each crossed side is visited once and a closed contour never reaches the border |
| C150 | `time_tracking` of `M_Tables.v` with two detection and two distance functions; `S_Shape.v` | names of all eddies of a run (as C148), then induction over the steps; new identifiers are an increasing enumeration of the same eddies, so they are equal |
| C151 | as C150; errors and margins in `S_Inexact.v` | from the step of C150, which needs only the latest positions of the tracks |
| C152 | `trace`, `gaussian`; `S_Peak.v`, `S_Noise.v` | the points beyond the level are the same with and without the noise; by C134 they are star-shaped along rows and columns, hence connected without use of the means; then C130 for the field with noise |
| C153 | `trace`; `S_Hills.v` | by C129 and C139 no contour separates connected points and every crossed side is on a contour; for each closed contour the points inside are those of one hill, each hill has one, and two contours with the same hill would share a side; the number of eddies of a run follows as for C130 (`S_Hills2.v`; uses `classic` to pick one point per hill) |
| C118, C119 | `trace`; points of lines in `S_Cross.v` | from C112. In a cell, each line lies on a straight line on whose sides the rim of the cell lies according to its values (in a cell with four crossed sides, one half of this, which half is decided by the mean); the other line begins and ends on one side of it. In two cells: a common point is on the rim of both, where its value is the level. Points: C76 and strict positions inside the sides |
| C74, C75 | generator arguments, `pass_args` | case analysis; refute |

### How the contour tracer is proved (C63-C66, C76-C78)

`M_Cntr.v` keeps the C program's own control flow: the flag array, `zone_crosser` with its four directions, the start
marks, the two passes of `curve_tracer` with the resumption of half curves, and the recorded saddle decisions.
`L_Cntr1` defines an abstract walk (the next side in the cell beyond, with a fixed resolution `T` of
every ambiguous cell) and shows it is an injective partial map, so every side lies on exactly one curve.  `L_Cntr2` shows that
the C loop follows that walk for one curve, whatever order saddles were first met in; `L_Cntr3` that the search for the next start mark
goes through the marks in order; `L_Cntr4` and `L_Cntr5` carry the invariant of the first pass (which sides have been passed, which half curves wait);
`L_Cntr6` shows that the second pass emits what the first counted; `L_Cntr7` and `L_Cntr8` that `data_init` marks every curve;
`L_Cntr9` puts these together, `L_Cntr10` ties `T` to the centre test, `L_Cntr11` translates to the specification `S_Cntr.v`, and
`L_Cntr12` runs the program from two different memories.

## 3. Trusted base

* Coq's kernel (8.16.1), also re-run by `coqchk`.  `vm_compute`/`compute` are used for concrete examples only through the kernel.
* The model is a hand translation: that the Gallina functions say what the Python and C code does is by reading, helped by the
  line citations.  The behaviour of numpy, pandas, scipy, scikit-learn, astropy and xarray calls is modelled from their documentation.
* Axioms: only those of the standard library's real numbers, as listed by `Print Assumptions` under every theorem:

| letter | axiom |
|---|---|
| D | `ClassicalDedekindReals.sig_forall_dec` |
| N | `ClassicalDedekindReals.sig_not_dec` |
| F | `FunctionalExtensionality.functional_extensionality_dep` |
| C | `Classical_Prop.classic` |

Of the 365 theorems in the manifest 171 are closed under the global context (`-`).

| file | axioms | theorems |
|---|---|---|
| `P_Area.v` | DNFC | `C39_mirror_north_south_refuted`, `C39_half_turn_refuted`, `C39_defined`, `C39_nonnegative`, `C39_single_place`, `C39_there_and_back`, `C39_whole_turns`, `C39_mirror_east_west`, `C39_mirror_north_south`, `C39_reversed`, `C39_restart`, `C71_polar_coordinates`, `C71_cap` |
| `P_Area2.v` | DNFC | `C98_moved_along_a_parallel_refuted`, `C99_accuracy_of_the_area`, `C99_defined` |
| `P_Backwards.v` | - | `C145_backwards`, `C145_backwards_refuted` |
| `P_Border.v` | - | `C115_inner_contours_are_closed`, `C115_eddies_of_a_run_are_closed`, `C116_levels_with_contours`, `C117_extrema_of_a_run`, `C97_steady_field_refuted` |
| `P_Cntr.v` | - | `C64_tracing_stays_inside_the_arrays`, `C64_empty_mesh_refuted`, `C65_contours_close_or_join_the_boundary`, `C65_closed_contours_repeat_their_first_vertex`, `C66_vertices_and_codes_correspond`, `C76_every_crossed_side_is_visited_once`, `C78_result_does_not_depend_on_uninitialised_memory` |
| `P_Cntr.v` | DF | `C63_vertices_lie_where_the_level_is_met`, `C77_ambiguous_cells_follow_the_mean` |
| `P_Convention.v` | - | `C136_longitude_convention`, `C136_longitude_convention_refuted`, `C136_fails_near_longitude_zero_refuted` |
| `P_Coords.v` | - | `C51_dimensions`, `C51_no_time`, `C51_grid`, `C51_shape_rejected`, `C51_missing`, `C51_variables`, `C52_refuted`, `C52_no_pair_partial`, `C52_other_names_partial`, `C72_latitude_first_partial`, `C72_longitude_first_refuted` |
| `P_Crash.v` | - | `C100_files_of_a_stopped_run`, `C101_run_again`, `C102_continue_at_the_step_refuted`, `C102_continue_one_step_earlier_partial` |
| `P_Cross.v` | DF | `C119_lines_meet_in_ends_only`, `C119_no_point_twice` |
| `P_Cross.v` | DFC | `C118_levels_never_meet` |
| `P_Detect.v` | - | `C18_every_contour_judged`, `C18_verdict_unique`, `C18_identified_iff_accepted`, `C19_resembles_ellipse_refuted`, `C19_better_than_asked_never_identified`, `C20_no_missing_vertex_in_an_eddy`, `C20_missing_vertex_not_accepted`, `C21_only_closed_refuted`, `C21_verdict_from_measures_only`, `C22_discarded_only_that_level_refuted`, `C22_discarded_accumulate`, `C22_identified_only_that_level`, `C23_no_trace_refuted`, `C23_leftovers_after_exception`, `C24_identifiers_from_zero`, `C25_nonzero_levels_in_order`, `C25_selection_unique`, `C53_record_columns`, `C53_unexpected_shape_raises_refuted` |
| `P_Double.v` | DNFC | `C88_vertices_in_double_arithmetic`, `C89_vertices_inside_the_grid_refuted`, `C89_vertices_stay_on_their_side_partial` |
| `P_Ellipse.v` | DNFC | `C40_fitted_ellipse`, `C40_points_parametrised`, `C41_exact_ellipse_recovered`, `C42_circle_refuted`, `C42_slight_tilt_refuted`, `C42_direction_of_major_axis`, `C42_exact_ellipse_direction`, `C70_hyperbola_refuted`, `C70_parabola_refuted`, `C70_ellipse_finite`, `C70_finite_exactly` |
| `P_Enclose.v` | - | `C125_what_closed_contours_enclose_on_the_mesh`, `C126_closed_contours_enclose_an_extremum_on_the_mesh` |
| `P_Enclose.v` | DF | `C125_what_closed_contours_enclose`, `C126_closed_contours_enclose_an_extremum` |
| `P_Figures.v` | - | `C110_figure_refuted`, `C110_no_eddies_refuted`, `C110_figure_of_a_level_partial`, `C110_figure_of_the_levels` |
| `P_Filter.v` | - | `C50_window` |
| `P_Filter.v` | DF | `C47_unfiltered_partial`, `C47_space_ignores_option`, `C47_refuted`, `C47_time_no_field`, `C48_refuted`, `C48_mode_refuted`, `C48_rejected_partial`, `C49_meridional`, `C49_zonal`, `C49_linear`, `C50_succeeds`, `C50_constant`, `C50_border`, `C50_linear`, `C50_shift`, `C50_spike` |
| `P_Frechet.v` | - | `C35_thinning_terminates` |
| `P_Frechet.v` | DNF | `C32_discrete_frechet_distance`, `C33_long_curves_refuted`, `C33_distance_of_thinned_curves`, `C34_nonnegative`, `C34_symmetric`, `C34_identical_curves`, `C34_first_points`, `C34_last_points`, `C34_zero_means_equal`, `C34_triangle`, `C35_recursion_limit_refuted`, `C35_frames_needed`, `C35_short_curves_never_overflow`, `C35_empty_curve`, `C36_between_0_and_1`, `C36_symmetric`, `C36_curve_with_itself`, `C36_moving_both`, `C36_turning_both`, `C36_scaling_both`, `C36_value`, `C37_nonnegative`, `C37_two_points`, `C37_additive`, `C37_direction`, `C37_translation`, `C37_rotation`, `C37_scaling`, `C37_chord` |
| `P_FrechetFloat.v` | DNF | `C90_exact_arithmetic` |
| `P_FrechetFloat.v` | DNFC | `C90_missing_first_vertex_refuted`, `C90_calls_partial`, `C90_calls_300`, `C91_distance_of_curves_with_missing_vertices_refuted`, `C91_similarity_of_curves_with_missing_vertices`, `C92_accuracy_of_the_distance`, `C93_tiny_curve_refuted`, `C93_similarity_range`, `C93_similarity_symmetric`, `C93_curve_with_itself_partial` |
| `P_Gauss.v` | DF | `C44_circle_refuted`, `C44_feasible_start`, `C44_mean_spacing_x`, `C44_mean_spacing_y` |
| `P_Gauss.v` | DNF | `C38_defined_between_0_and_1`, `C38_increases_with_elongation`, `C38_scaling`, `C38_signs`, `C38_rounded`, `C43_value_at_centre`, `C43_sign_everywhere`, `C43_point_symmetric`, `C43_period_pi`, `C43_profile`, `C43_e_folding`, `C43_array`, `C45_zero_means_perfect_refuted`, `C45_nonnegative`, `C45_zero_iff_constant_misfit`, `C45_perfect_fit_is_zero`, `C45_sizes`, `C46_positive`, `C46_symmetric`, `C60_same_surface` |
| `P_Gauss.v` | DNFC | `C43_extremum_only_at_centre`, `C46_decreasing`, `C46_at_most_260`, `C61_shape`, `C61_half_at_half_width`, `C61_decreases_with_distance`, `C61_default_centre`, `C61_moving` |
| `P_Generator.v` | - | `C62_king_move`, `C62_all_directions`, `C74_refuted`, `C74_rejected_partial`, `C74_count` |
| `P_Generator.v` | DF | `C75_refuted`, `C75_centre_without_margin_partial`, `C75_drawn_centre_partial` |
| `P_Generator.v` | DNF | `C56_kept_apart_partial`, `C56_apart_when_a_below_b_partial`, `C56_refuted`, `C57_refuted`, `C57_refuted_never_stops`, `C57_ends_iff_partial`, `C58_square_partial`, `C58_layout_partial`, `C58_returns`, `C59_refuted`, `C59_empty_partial` |
| `P_Generator.v` | DNFC | `C58_refuted` |
| `P_Generator2.v` | DNF | `C94_refuted`, `C94_later_fields_partial`, `C94_first_field_partial`, `C94_no_margin_partial` |
| `P_Given.v` | - | `C109_array_of_levels` |
| `P_Hill.v` | - | `C129_joined_crossings_on_the_mesh`, `C130_one_hill_one_contour_on_the_mesh` |
| `P_Hill.v` | DF | `C129_crossings_of_a_closed_contour`, `C130_one_hill_one_contour` |
| `P_Hill2.v` | - | `C130_one_eddy_per_level` |
| `P_Hills.v` | DF | `C153_every_hill_has_its_contour`, `C153_as_many_contours_as_hills`, `C153_hills_in_noise` |
| `P_Hills2.v` | C | `C153_eddies_of_a_run` |
| `P_Inexact.v` | - | `C151_small_errors_do_not_change_tracks` |
| `P_Inside.v` | - | `C131_eddies_enclose_an_extremum`, `C132_eddies_of_a_step_are_nested_or_apart`, `C133_number_of_eddies_of_a_step` |
| `P_Length.v` | DNFC | `C146_length_in_doubles` |
| `P_Levels.v` | - | `C14_snapshot_shape`, `C14_levels_merged_as_specified`, `C14_eddies_stay_whole`, `C15_never_fused_refuted`, `C15_next_level_raises_refuted`, `C16_better_fit_kept_refuted`, `C16_earlier_kept_without_gaussian`, `C17_only_coinciding_replaced` |
| `P_Levels2.v` | - | `C108_start_without_end_refuted`, `C108_start_and_end_partial`, `C109_list_of_levels_refuted`, `C111_levels_never_reached`, `C113_repeated_level_refuted`, `C113_repeated_level_partial`, `C114_order_of_levels_refuted`, `C114_order_of_levels_partial` |
| `P_Lines.v` | - | `C103_lines_in_any_arithmetic` |
| `P_Lines.v` | DF | `C103_lines_drawn`, `C104_reversed_field_refuted`, `C104_reversed_field_partial`, `C105_order_of_the_axes`, `C106_units_of_the_data`, `C106_units_of_the_coordinates` |
| `P_Lines2.v` | DF | `C112_lines_cell_by_cell`, `C112_part_of_the_domain` |
| `P_MaskFloat.v` | DNFC | `C142_sign_in_floating_point`, `C142_values_of_one_sign`, `C142_only_zeros`, `C142_sign_in_floating_point_refuted` |
| `P_Motion.v` | - | `C95_no_time_dimension_refuted`, `C95_like_a_repeated_field_partial`, `C96_tracks_follow_the_eddies`, `C97_a_steady_field_has_steady_tracks_partial` |
| `P_Nest.v` | - | `C127_closed_contours_are_nested_or_apart_on_the_mesh`, `C128_number_of_closed_contours_on_the_mesh` |
| `P_Nest.v` | DF | `C127_closed_contours_are_nested_or_apart`, `C128_number_of_closed_contours` |
| `P_Noise.v` | DF | `C149_small_noise`, `C149_means_matter` |
| `P_NoiseLoop.v` | DF | `C149_closed_contours`, `C149_closed_outlines` |
| `P_NoisyPeak.v` | DF | `C152_noisy_hill` |
| `P_NoisyPeak.v` | DNFC | `C152_noisy_gaussian` |
| `P_Peak.v` | DNFC | `C134_one_gaussian_one_contour`, `C134_tilted_gaussian_refuted` |
| `P_Pipeline.v` | - | `C79_table_of_a_run`, `C79_every_row_is_a_vertex_of_an_accepted_contour`, `C80_one_level_loses_nothing`, `C81_runs_are_independent`, `C82_only_the_steps_analysed_matter`, `C83_a_failed_run_leaks_refuted` |
| `P_Plot.v` | - | `C67_colour_of_reason`, `C73_refuted`, `C73_first_partial`, `C73_levels_apart_partial` |
| `P_Printer.v` | - | `C55_refuted`, `C55_python3_partial`, `C55_python2_partial`, `C55_versions_partial` |
| `P_Printer.v` | DNFC | `C107_estimated_time`, `C54_bar`, `C54_bar_never_shrinks`, `C54_last`, `C54_percent`, `C54_percent_never_shrinks` |
| `P_Process.v` | - | `C84_longer_runs_extend_shorter_ones`, `C85_one_more_step`, `C86_when_a_run_returns`, `C87_offline_files` |
| `P_Region.v` | - | `C148_regions` |
| `P_Reverse.v` | - | `C139_highs_and_lows_alike` |
| `P_Ring.v` | DNFC | `C122_order_of_the_vertices`, `C122_direction`, `C123_starting_vertex_refuted`, `C123_contours_on_an_ellipse`, `C124_direction_refuted`, `C124_starting_vertex`, `C124_reversed_ellipse` |
| `P_Seam.v` | DF | `C135_start_of_a_global_grid`, `C135_start_of_a_global_grid_refuted` |
| `P_Shape.v` | - | `C150_distances_and_radii_decide`, `C150_moved_positions` |
| `P_Similar.v` | DNFC | `C147_similarity_in_doubles` |
| `P_Skip.v` | - | `C144_skipping_the_gaussian`, `C144_two_levels_refuted` |
| `P_Small.v` | - | `C120_single_row_or_column_refuted` |
| `P_Start.v` | - | `C141_first_vertex`, `C141_first_vertex_refuted` |
| `P_Store.v` | - | `C12_file_names_distinct`, `C12_alphabetical_is_chronological`, `C12_every_snapshot_is_kept`, `C12_offline_run_never_overwrites`, `C12_order_bound_is_sharp`, `C13_unsupported_format_reported_refuted`, `C13_run_with_unsupported_format_refuted`, `C13_storing_in_a_run`, `C13_supported_formats_partial` |
| `P_Strict.v` | - | `C143_stricter_criteria`, `C143_ellipse_fit_refuted`, `C143_two_levels_refuted` |
| `P_Tracking.v` | - | `C01_track_ids_never_change`, `C02_online_rows_conserved`, `C03_track_ids_contiguous`, `C04_table_sorted`, `C05_link_iff_nearest_within_radius`, `C06_one_eddy_per_track_and_time_refuted`, `C06_distinct_ids_without_collision_partial`, `C06_when_two_eddies_share_a_track`, `C07_ntimes_limits_gap_refuted`, `C07_ntimes_has_no_effect`, `C08_empty_step_tolerated_refuted`, `C08_C09_success_condition`, `C09_start_at_any_step_refuted`, `C10_tf_omitted_refuted`, `C10_tf_zero_is_tf_omitted`, `C11_offline_writes_every_snapshot_refuted` |
| `P_Turn.v` | - | `C121_closed_contours_have_the_higher_values_on_their_left` |
| `P_Turn.v` | DF | `C121_higher_values_on_the_left_in_the_plane`, `C121_reversed_field_reverses_the_direction` |
| `P_Turned.v` | - | `C140_direction_of_the_axes`, `C140_direction_of_the_axes_refuted` |
| `P_Units.v` | - | `C138_zero_of_the_field_refuted`, `C138_level_at_zero_refuted` |
| `P_Units.v` | F | `C137_unit_of_the_field`, `C138_zero_of_the_field` |
| `P_Values.v` | - | `C05_last_known_value`, `C53_discarded_columns` |
| `P_Values.v` | DF | `C50_default_filter` |
| `P_Window.v` | - | `C26_extremum_zero_iff_mean_zero`, `C27_extremum_of_the_eddy`, `C27_raises_iff_no_value`, `C28_mask_is_filled_contour`, `C29_window`, `C29_window_is_the_box_with_the_margin`, `C29_clamping_terminates`, `C30_regular_grid_mapping`, `C31_curvilinear_mapping_refuted`, `C31_block_preselection_mapping`, `C68_nearest_of_whole_grid_refuted`, `C68_coarse_grid_raises_refuted`, `C68_nearest_when_preselected`, `C69_extremum_at_a_grid_point` |

No axiom, parameter, functor or module type is declared in the development, and no kernel check is switched off.

## 4. What is modelled

| code | model | remarks |
|---|---|---|
| `utils.py`: all functions | `M_Tables.v`, `M_Store.v`, `M_Window.v` | contents of the written files are not modelled, their names and the rows handed over are |
| `utils.py`: `_mask_data_in_contour` with rounding | `M_MaskFloat.v` | the order of the additions is left open |
| `trackeddy.py`: `__init__`, `check_coords`, `identify_coords`, `_get_dims`, `_get_vars` | `M_Coords.v` | `xr.open_mfdataset` is outside |
| `trackeddy.py`: `_filter_data_`, `_time_filter`, `_space_filter`, `treat_nan`; `decorators.py`: `filter_data` | `M_Filter.v` | astropy's `convolve` by its documented formula |
| `trackeddy.py`: `time_tracking`, `_detect_snapshot` | `M_Tables.v`, `M_Detect.v`; joined in `M_Pipeline.v` | the run from the dataset to the table, for a sequence of runs in one process |
| `trackeddy.py`: `_detect_one_level`; `decorators.py`: `eddy_identifier`, `check_return_eddies`; `eddy.py` | `M_Detect.v`, `M_Eddy.v` | numerical parts are arbitrary functions that may raise |
| `trackeddy.py`: `_data_in_contour`, `_get_data_in_contour` | `M_Window.v` | |
| `trackeddy.py`: `plot_*` | `M_Plot.v`, `M_Figures.v` | which curves and points in which colours; rendering is outside |
| `trackeddy.py`: types of the arguments of `time_tracking` | `M_Arguments.v` | |
| `geometry.py`: all functions | `M_Extract.v`, `M_Gauss.v`, `M_Ellipse.v`, `M_Frechet.v`, `M_FrechetFloat.v`, `M_Area.v`, `M_AreaR.v` | optimiser and linear solver are oracles |
| `physics.py`, `printfunc.py` | `M_Gauss.v`, `M_Printer.v` | |
| `generator/*.py`: all functions | `M_Generator.v`, `M_Gauss.v` | random draws are inputs |
| `src/cntr.c`: `zone_crosser` (level 0), `curve_tracer`, `data_init`, `cntr_init`, `reorder`, `build_cntr_list_v2`, `cntr_trace` (one level), `Cntr_trace` | `M_Cntr.v`, `M_Extract.v` | no mask, one chunk, unbounded integers |

### Not modelled

Rendering of figures, `setup.py`, `src/*.py` (a download script and an MPI sketch), `validation/`, `examples/`, `tests/`, `docs/`; in `cntr.c`:
`edge_walker` and `slit_cutter` (used only for filled contours or chunks, which trackeddy never asks for), masks, `get_cdata`,
allocation failure, overflow of `long`/`int`; the inside of `scipy.optimize`, `BallTree`, `np.linalg.solve`, `pandas`, `xarray`
and `astropy`; file contents; infinities in table code; floating-point rounding except in C38, C54, C88-C93, C142, C146, C147 and the contour tracer.

## 5. Findings

Defects of the code met while modelling; those with an id are theorems.

* Tracking: two eddies of one snapshot can join one track (C06); `ntimes` has no effect (C07); a step without eddies, or a start after
  step 0, makes the run fail (C08, C09); leaving out `tf` or `lin_levels` raises `TypeError` (C10); data without a time dimension raise `KeyError` unless `tf` is given (C95); offline mode never writes
  the first snapshot (C11); an unsupported format loses the snapshot silently (C13); `to_json` needs a unique index.
* Level merging: two eddies of a level can be stored under one identifier, after which the next level raises (C15); the less similar
  of two detections is kept (C16).
* Detection: the similarity test is inverted (C19); closedness is never tested (C21); discarded contours leak from level to level (C22);
  eddies leak after an exception (C23), into the table of the next run of any object (C83); contours whose mean is their first vertex are ignored silently.
* Data lookup: wrong cells on curvilinear grids (C31) and for large contours, `ValueError` on coarse grids (C68); a dataset with dimensions
  (lon, lat) is read transposed (C72); variables with `lon`/`lat` in their names hijack the coordinates (C52).
* Geometry: `frdist` drops vertices of long curves (C33) and can overflow the stack (C35); with NaN in a first vertex it practically never ends (C90), NaN in other
  vertices is passed over (C91); the similarity of a curve with itself is NaN when the product of the lengths underflows (C93); the area is not symmetric for a contour through 0E 0N (C39); a small contour near 0E 0N may have area 0 and a positive area elsewhere (C98);
  exact circles have NaN orientation, so the Gaussian fit raises (C42, C44); hyperbolas pass as ellipses (C70); the
  misfit vanishes for a constant offset (C45).
* Arguments: without `tf` the first step asked for is ignored (C108); levels given as a list or tuple make every run fail (C109). Figures: a level with only accepted or only
  rejected contours, and a snapshot without eddies, cannot be drawn (C110). Levels: an eddy of radius 0 is reported once per repetition of its level (C113); the order of the levels decides which contour of an eddy is reported (C114).
* Direction: contours run anticlockwise around highs and clockwise around lows (C121), the fitted ellipse is listed anticlockwise from its axis, and the similarity depends on both: an exact
  circle has similarity 1 around a high (and is then discarded, C19) and less than 0.7 around a low (C124). The orientation of the fitted ellipse depends on the vertex at which the contour starts (C123).
* Longitudes: grid points are preselected within 3 degrees plus 5 percent of the mean longitude, so the data found for a contour depend on the meridian from which longitudes are counted, and near longitude 0 the analysis of a coarse grid fails with a ValueError (C136).
* Zero of the field: a run on sea level whose values are all shifted finds the same contour lines, but a hill that comes to lie below zero is recorded with the sign -1 and the lowest point of its rim in place of its summit, and a level that becomes zero is skipped (C138).
* Direction of the axes: of two equal summits in one contour the first one in the order of storage is reported, so the position depends on whether latitudes are stored from south to north (C140).
* First vertex: the mean around which grid points are preselected counts the first vertex of a closed contour twice, so a summit near the end of a contour of 6 degrees is found or missed depending on the vertex from which the contour is listed (C141).
* Sign in floating point: rounding can turn the sign of a mean that is small compared with the values, and then the opposite extremum is reported (C142).
* Stricter criteria: raising `ellipse_fit` admits more contours, and a stricter limit on the eccentricity can bring up, at a higher level, eddies that were not in the table before (C143).
* Skipping the Gaussian fit: with several levels it can take eddies out of the table, because a larger contour that is now accepted hides them (C144).
* Direction of time: two eddies that merge are two tracks, one of which ends, but run backwards both continue the one eddy and get one track (C145).
* Noise smaller than the distance of every value from the level can still change how the contours are joined, in a cell with high values at two opposite corners whose mean is near the level (C149).
* Grids: nothing joins the last column to the first, so an eddy on the seam of a global grid has no closed contour and is lost (C135); the contour of a thin tilted Gaussian can fall apart
  into several eddies of one level (C134).
* A single row or column: `squeeze` removes the dimension and the tracer refuses the array, so every run raises ValueError (C120).
* Steady fields: an eddy of radius 0 is not within its own radius, so a field that does not change gives a new track at every step (C97).
* Restart: continuing a stopped offline run at the interrupted step leaves the cut-off file (C102). Contours: a peak that just reaches the level has no contour, the reversed peak has one in one point (C104).
* Filters: `nan_treatment` is ignored under the default filter (C47); unknown filters and modes are accepted silently, `time` and `both`
  return no field (C48).
* Records and messages: an n x 2 property replaces the contour (C53); Python 3.2-3.9 pass the version test (C55); wrong legend colours (C73).
* Generator: eddies in the same place (C56), endless loop (C57), scrambled non-square fields (C58), `reconstruct_field` always
  raises (C59), the test on n is vacuous (C74), the margin moves the eddies (C75), so that eddies of the first field can be nearer to each other
  than the option `no_interaction` allows (C94).
* `cntr.c`: a grid without points reads outside the data (C64); after a failed allocation `cntr_init` frees the site and `Cntr_dealloc` frees it again
  (by reading); grids of one row or column have no contours; NaN counts as below the level and gives NaN vertices;
  rounding can put a vertex outside the grid (C89).
