{"id": "C01", "title": "Track identifiers never change once assigned", "statement": "When time_tracking(online_track=True) processes one more time step, every row it had already produced keeps its identifier, its time, its contour index and all its column values; only rows of the new time step are added.", "quantifier": "every history of snapshots (any number of time steps, eddies and contour points), every nearest-neighbour outcome, every ntimes, both pandas conventions for unused index levels", "why_tests_cant": "renumbering bugs show only for particular patterns of matched/unmatched eddies over many steps; the number of histories is unbounded", "anchors": ["trackeddy/utils.py: track_online, _merge_reindex_eddies, _update_counter, _rename_eddies_in_time, unlink_eddies_in_previous_times", "trackeddy/trackeddy.py: TrackEddy.time_tracking"]}
{"id": "C02", "title": "Online tracking loses and invents nothing", "statement": "The table returned by time_tracking(online_track=True) holds exactly the contour rows of all the snapshots that contained eddies: each (time, contour index, column values) row of each snapshot occurs as often as in the snapshot, and there is no other row.", "quantifier": "every sequence of snapshots on which tracking finishes", "why_tests_cant": "conservation has to hold for every pattern of linking and merging, including several eddies linked to one track", "anchors": ["trackeddy/utils.py: track_online, _merge_reindex_eddies", "trackeddy/trackeddy.py: TrackEddy.time_tracking"]}
{"id": "C03", "title": "Track identifiers are exactly 0..n-1", "statement": "After any number of time steps the identifiers in the returned table are exactly 0,1,...,n-1 with no gap, and n is what len(table.index.levels[0]) reports.", "quantifier": "every sequence of snapshots on which tracking finishes", "why_tests_cant": "gaps appear only for particular sequences of links", "anchors": ["trackeddy/utils.py: _merge_reindex_eddies, _update_counter, track_online", "tests/test_2d_assemble.py: gauss_mult_n_fit"]}
{"id": "C04", "title": "The returned table is sorted by identifier, time and contour index", "statement": "Rows of the returned table are ordered by identifier, then by time, then by contour index, so table.loc[id] is the chronological trajectory of one eddy.", "quantifier": "every sequence of snapshots on which tracking finishes", "why_tests_cant": "ordering must survive any number of merge/re-sort rounds", "anchors": ["trackeddy/utils.py: track_online, _merge_reindex_eddies", "trackeddy/trackeddy.py: TrackEddy.time_tracking"]}
{"id": "C05", "title": "An eddy continues a track exactly when the nearest known track lies within its radius", "statement": "In each online step, a newly detected eddy receives the identifier of track k exactly when k is the track whose latest known maximum is nearest to the new eddy's maximum and that distance is smaller than the new eddy's own radius; otherwise it receives a fresh identifier larger than every earlier one, and distinct unmatched eddies receive distinct fresh identifiers.", "quantifier": "every track table, every snapshot, every distance function and every nearest-neighbour answer", "why_tests_cant": "off-by-one errors between positional indices and identifiers only show for particular numbers of tracks and eddies", "anchors": ["trackeddy/utils.py: _detect_nearest, _update_counter, _rename_eddies_in_time, track_online"]}
{"id": "C06", "title": "One eddy per track per time step", "statement": "In the returned table each identifier occurs at most once at each time (the rows of one identifier at one time are the points of a single contour).", "quantifier": "every snapshot sequence", "why_tests_cant": "needs two new eddies inside the reach of one old track; random fields rarely have it", "anchors": ["trackeddy/utils.py: _rename_eddies_in_time, _detect_nearest, track_online"]}
{"id": "C07", "title": "ntimes limits how long a lost track may be resumed", "statement": "An eddy may only be linked to a track that was seen in one of the last ntimes time steps; a track lost for longer than ntimes steps is terminated, as the documentation of time tracking says.", "quantifier": "every snapshot sequence and every ntimes", "why_tests_cant": "requires histories longer than ntimes with an eddy disappearing and another appearing at the same place", "anchors": ["trackeddy/utils.py: unlink_eddies_in_previous_times, _get_non_duplicated_identifiers", "trackeddy/trackeddy.py: TrackEddy.time_tracking", "docs/pages/Methods.rst: Eddy Time Tracking"]}
{"id": "C08", "title": "Time steps without eddies are tolerated", "statement": "A time step in which no eddy is found does not stop the tracking: later time steps are processed and the tracks go on.", "quantifier": "every position of empty time steps in every snapshot sequence", "why_tests_cant": "the failing schedule depends on where the empty step falls relative to the first non-empty one and to ntimes", "anchors": ["trackeddy/utils.py: unlink_eddies_in_previous_times", "trackeddy/trackeddy.py: TrackEddy.time_tracking"]}
{"id": "C09", "title": "Tracking may start at any time step", "statement": "time_tracking(t0, tf) with any 0 <= t0 < tf processes exactly the time steps t0..tf-1.", "quantifier": "every t0, tf and ntimes", "why_tests_cant": "tests only use t0=0", "anchors": ["trackeddy/trackeddy.py: TrackEddy.time_tracking", "trackeddy/utils.py: unlink_eddies_in_previous_times"]}
{"id": "C10", "title": "Leaving out tf processes the whole dataset", "statement": "time_tracking() called without tf processes every time step of the dataset, starting at t0.", "quantifier": "every dataset and every t0", "why_tests_cant": "tests always pass tf; failure needs at least two non-empty steps", "anchors": ["trackeddy/trackeddy.py: TrackEddy.time_tracking", "trackeddy/printfunc.py: Printer.timepercentprint"]}
{"id": "C11", "title": "Offline mode writes every non-empty snapshot", "statement": "With online_track=False, every time step that contains eddies is written to its own file in out_path, and no file is written twice.", "quantifier": "every snapshot sequence, every supported format", "why_tests_cant": "the omitted file is the first non-empty one only; depends on history", "anchors": ["trackeddy/trackeddy.py: TrackEddy.time_tracking", "trackeddy/utils.py: store_snapshot"]}
{"id": "C12", "title": "Snapshot files of different time steps never collide", "statement": "The file names produced for different non-negative time steps and the same format differ, and for time steps below 100000 the alphabetical order of the names is the chronological order.", "quantifier": "all time steps (unbounded)", "why_tests_cant": "ranges over all integers; padding changes behaviour only at 100000", "anchors": ["trackeddy/utils.py: store_snapshot"]}
{"id": "C13", "title": "An unsupported output format is reported", "statement": "store_snapshot either writes the snapshot or raises; it never silently drops it.", "quantifier": "every format string", "why_tests_cant": "ranges over all strings", "anchors": ["trackeddy/utils.py: store_snapshot", "trackeddy/trackeddy.py: TrackEddy.out_format"]}
{"id": "C14", "title": "Merging levels keeps identifiers contiguous and eddies apart", "statement": "After scanning any list of levels, the snapshot table has the identifiers 0..n-1, is sorted by identifier and contour index, and each identifier is one eddy, provided no two eddies of one level claim the same eddy of the earlier levels.", "quantifier": "every sequence of per-level tables and every nearest-neighbour outcome", "why_tests_cant": "identifier arithmetic across dropped/renamed/shifted eddies must work for every pattern", "anchors": ["trackeddy/trackeddy.py: TrackEddy._detect_snapshot", "trackeddy/utils.py: _update_better_eddy, _merge_reindex_eddies, _update_counter"]}
{"id": "C15", "title": "Two eddies of one level are never fused into one identifier", "statement": "When two distinct eddies found at one level are both close to the same eddy of an earlier level, they remain two eddies (or one is dropped); their contours are never stored under one identifier.", "quantifier": "every pair of levels", "why_tests_cant": "needs two better-scoring contours within reach of one earlier eddy", "anchors": ["trackeddy/utils.py: _update_better_eddy", "trackeddy/trackeddy.py: TrackEddy._detect_snapshot"]}
{"id": "C16", "title": "Of two detections of the same eddy at different levels the better fitting one is kept", "statement": "When an eddy of the current level coincides with an eddy of an earlier level, the one whose contour is more similar to its ellipse and to its Gaussian is kept, as the documentation says.", "quantifier": "every pair of coinciding detections", "why_tests_cant": "needs arbitrary fit values on both sides", "anchors": ["trackeddy/utils.py: _update_better_eddy", "trackeddy/geometry.py: compute_similarity", "docs/pages/Methods.rst: Contour Replacement"]}
{"id": "C17", "title": "Level merging only replaces coinciding eddies", "statement": "An eddy of an earlier level disappears from the snapshot table only if an eddy of the current level lying within its own radius of it takes its place, and an eddy of the current level is dropped only if it lies within its radius of an earlier eddy; every other eddy of both levels stays, with its rows unchanged.", "quantifier": "every pair of tables and every nearest-neighbour outcome", "why_tests_cant": "conservation across all patterns of replace/drop/append", "anchors": ["trackeddy/utils.py: _update_better_eddy, _merge_reindex_eddies"]}
{"id": "C18", "title": "A contour is reported as an eddy exactly when it passes every identification criterion", "statement": "For each contour of a level analysed without exception: it is left out silently iff its mean vertex coincides (to 1e-8 + 1e-5 relative) with its first vertex; otherwise it becomes an identified eddy iff its radius is not above max_area*Rd, contour and ellipse areas agree within the tolerance, the eccentricity is not above the limit, the ellipse similarity is not above the criterion, the extremum inside is not zero and (unless skip_gaussian_fit) a Gaussian contour exists and is not less similar than the criterion; otherwise it appears exactly once in the discarded table of a fresh process, with the reason of the first failed check.", "quantifier": "every list of contours, every criteria setting, every measured value including NaN", "why_tests_cant": "the decision depends on the order of eight comparisons with NaN semantics, for unboundedly many contours", "anchors": ["trackeddy/trackeddy.py: TrackEddy._detect_one_level", "trackeddy/eddy.py: Eddy.store, Eddy.discarded"]}
{"id": "C19", "title": "Identified eddies resemble their ellipse", "statement": "Every identified eddy has a contour/ellipse similarity of at least identification_criteria['ellipse_fit'] (documentation: 0.85 < R <= 1).", "quantifier": "every contour and criteria setting", "why_tests_cant": "a perfect contour is needed to expose the inverted comparison", "anchors": ["trackeddy/trackeddy.py: TrackEddy._detect_one_level", "docs/pages/Methods.rst: Ellipse Fitting"]}
{"id": "C20", "title": "Contours touching missing data never become eddies", "statement": "A contour with at least one NaN vertex is never reported as an identified eddy.", "quantifier": "every contour, every position of the NaN, every criteria setting", "why_tests_cant": "NaN has to propagate through every later computation for every shape", "anchors": ["trackeddy/trackeddy.py: TrackEddy._detect_one_level", "trackeddy/geometry.py: area_latlon_polygon"]}
{"id": "C21", "title": "Only closed contours become eddies", "statement": "Every identified eddy comes from a closed contour (first vertex equal to last vertex), as the documentation says.", "quantifier": "every contour", "why_tests_cant": "needs an open contour that satisfies every numeric criterion", "anchors": ["trackeddy/trackeddy.py: TrackEddy._detect_one_level", "trackeddy/geometry.py: extract_contours", "docs/pages/Methods.rst: Closed Contours"]}
{"id": "C22", "title": "Per-level results depend only on that level", "statement": "The identified and discarded tables returned for one level list contours of that level only, whatever was analysed before.", "quantifier": "every history of earlier levels, time steps and TrackEddy objects", "why_tests_cant": "the leak needs a level with discarded but no identified contour followed by another level", "anchors": ["trackeddy/decorators.py: eddy_identifier, check_return_eddies", "trackeddy/eddy.py: Eddy.exit", "trackeddy/trackeddy.py: TrackEddy._detect_one_level"]}
{"id": "C23", "title": "A failed detection leaves no trace", "statement": "If the analysis of a level raises an exception part way, a later analysis (of any object) returns the same tables as in a fresh process.", "quantifier": "every crash point inside a level and every later call", "why_tests_cant": "ranges over crash points", "anchors": ["trackeddy/decorators.py: eddy_identifier, check_return_eddies", "trackeddy/eddy.py: Eddy.exit"]}
{"id": "C24", "title": "Identifiers within a level count up from zero", "statement": "The eddies identified at one level are numbered 0,1,2,... in contour order, and each one's rows are numbered 0..m-1 along the contour.", "quantifier": "every list of contours, starting from a reset state", "why_tests_cant": "counter/reset protocol over all call histories", "anchors": ["trackeddy/decorators.py: eddy_identifier, check_return_eddies", "trackeddy/eddy.py: Eddy.store, Eddy.to_table"]}
{"id": "C25", "title": "The zero level is never analysed and the other levels are analysed in the order given", "statement": "For every array of levels, the levels analysed in a snapshot are exactly the non-zero ones, in order, with multiplicity.", "quantifier": "every levels array", "why_tests_cant": "all arrays", "anchors": ["trackeddy/trackeddy.py: TrackEddy._detect_snapshot"]}
{"id": "C26", "title": "A contour is discarded as an island exactly when the field inside averages to zero", "statement": "The extremum reported for a contour is 0 exactly when the mean of the field inside the contour is 0.", "quantifier": "every field and every contour mask with at least one valid value", "why_tests_cant": "relation between mean, sign and extremum for all fields", "anchors": ["trackeddy/utils.py: _mask_data_in_contour", "trackeddy/trackeddy.py: TrackEddy._detect_one_level"]}
{"id": "C27", "title": "The extremum belongs to the eddy", "statement": "The reported extremum is the maximum of the field inside the contour when the mean there is positive and the minimum when it is negative; it is the value at the reported grid position, which lies inside the contour, and its magnitude is at least that of the mean.", "quantifier": "every field, every mask, with missing values", "why_tests_cant": "all fields; positional bookkeeping (flat index -> row, column)", "anchors": ["trackeddy/utils.py: _mask_data_in_contour", "trackeddy/trackeddy.py: TrackEddy._data_in_contour"]}
{"id": "C28", "title": "The eddy mask is the contour with its interior filled", "statement": "The mask of an eddy contains exactly the grid cells that are on the contour or cannot be connected to the window border by horizontal/vertical steps avoiding the contour.", "quantifier": "every window size and every set of contour cells", "why_tests_cant": "reachability over arbitrary shapes", "anchors": ["trackeddy/utils.py: _mask_data_in_contour"]}
{"id": "C29", "title": "The analysis window stays inside the grid and contains the contour", "statement": "For every contour the extracted window lies within the grid bounds, contains every grid cell of the contour, includes the requested margin wherever the grid permits, and the contour's window-relative positions are valid; the clamping loops terminate.", "quantifier": "every grid shape, every list of contour cells, every threshold", "why_tests_cant": "boundary contours at every edge/corner, loop termination", "anchors": ["trackeddy/trackeddy.py: TrackEddy._get_data_in_contour"]}
{"id": "C30", "title": "Contour vertices are mapped to the right grid cells", "statement": "On a grid built from 1-D coordinates, the (row, column) assigned to a contour vertex are those of the grid point that is nearest to the vertex among the preselected grid points.", "quantifier": "every regular grid, every contour position, every nearest-neighbour answer", "why_tests_cant": "flat-index/row/column/shift arithmetic for all rectangles", "anchors": ["trackeddy/trackeddy.py: TrackEddy._data_in_contour"]}
{"id": "C31", "title": "Contour vertices are mapped to the right grid cells on curvilinear grids", "statement": "The same mapping is right for datasets with 2-D coordinates, which the code says it supports.", "quantifier": "every 2-D coordinate array", "why_tests_cant": "needs a grid whose preselected points do not form a rectangle", "anchors": ["trackeddy/trackeddy.py: TrackEddy._data_in_contour, TrackEddy.check_coords"]}
{"id": "C32", "title": "frdist is the discrete Frechet distance", "statement": "For curves of which at least one has at most 300 points, frdist(P,Q) equals the discrete Frechet distance: the minimum over all couplings (monotone joint traversals) of the maximal distance of coupled points.", "quantifier": "all pairs of non-empty curves", "why_tests_cant": "minimum over exponentially many couplings", "anchors": ["trackeddy/geometry.py: frdist, _c"]}
{"id": "C33", "title": "frdist is the discrete Frechet distance for long curves too", "statement": "The same equality holds when both curves have more than 300 points.", "quantifier": "all pairs of curves", "why_tests_cant": "needs long curves differing at skipped vertices", "anchors": ["trackeddy/geometry.py: frdist"]}
{"id": "C34", "title": "frdist behaves like a distance", "statement": "frdist is non-negative, symmetric in its arguments, zero for identical curves, and at least the distance between the first points and (without thinning) between the last points; zero distance of equally long unthinned curves without repeated vertices means equal curves; the triangle inequality holds for curves that are not thinned.", "quantifier": "all curves", "why_tests_cant": "universal metric laws", "anchors": ["trackeddy/geometry.py: frdist, _c"]}
{"id": "C35", "title": "frdist terminates without exhausting the Python stack", "statement": "For every pair of non-empty curves the thinning loop terminates and the recursion stays below Python's recursion limit (1000).", "quantifier": "all pairs of curve lengths", "why_tests_cant": "depth depends on unbounded lengths", "anchors": ["trackeddy/geometry.py: frdist, _c"]}
{"id": "C36", "title": "The similarity score lies in [0,1] and is symmetric", "statement": "compute_similarity of curves of positive length lies in [0,1], does not depend on the argument order, is 1 for a curve and itself, and is unchanged by moving both curves together or scaling both by the same factor.", "quantifier": "all curves with non-zero length", "why_tests_cant": "universal numeric laws including rounding", "anchors": ["trackeddy/geometry.py: compute_similarity, arc_length, frdist"]}
{"id": "C37", "title": "The contour length is the polyline length", "statement": "arc_length is non-negative, additive under concatenation at a shared vertex, independent of direction, unchanged by translation and rotation, and at least the distance of the end points.", "quantifier": "all polylines", "why_tests_cant": "universal", "anchors": ["trackeddy/geometry.py: arc_length"]}
{"id": "C38", "title": "Eccentricity is well defined and in [0,1)", "statement": "For axes |a| >= |b| > 0 the eccentricity is a number in [0,1), zero exactly for circles, increasing with elongation, unchanged by scaling and by signs; with rounded (floating-point) arithmetic the square root is still never taken of a negative number.", "quantifier": "all axis pairs and every monotone rounding", "why_tests_cant": "all reals/floats", "anchors": ["trackeddy/geometry.py: eccentricity"]}
{"id": "C39", "title": "The eddy area does not depend on the labelling of the contour", "statement": "area_latlon_polygon is defined for every polygon (no square root of a negative number), non-negative, 0 for a degenerate contour, unchanged when any longitude is shifted by 360 degrees, and, if no segment spans exactly half a turn of azimuth, when the contour is mirrored east-west or north-south and when it is traversed in the opposite direction.", "quantifier": "all contours", "why_tests_cant": "universal over real coordinates", "anchors": ["trackeddy/geometry.py: area_latlon_polygon"]}
{"id": "C40", "title": "The fitted ellipse is an ellipse with ordered axes", "statement": "fit_ellipse returns major axis >= minor axis >= 0 and as many ellipse points as contour points, the first equal to the last, each lying on the ellipse with these axes about one common centre, tilted by one common angle.", "quantifier": "all contours for which the normal equations are solvable and the fitted conic is not a parabola (see C70)", "why_tests_cant": "universal", "anchors": ["trackeddy/geometry.py: fit_ellipse"]}
{"id": "C41", "title": "An exact ellipse is recovered exactly", "statement": "If all contour points lie on one ellipse around their mean region and determine the conic uniquely, every point returned by fit_ellipse lies on that ellipse (when its tilt exceeds the tolerance or it has none).", "quantifier": "all ellipses, all samplings", "why_tests_cant": "universal; numeric tests sample a few angles", "anchors": ["trackeddy/geometry.py: fit_ellipse", "tests/test_orientation.py"]}
{"id": "C42", "title": "The reported orientation is the direction of the major axis", "statement": "ellipse_params_theta is the angle between the x axis and the major axis of the fitted ellipse.", "quantifier": "all fitted conics, including circles", "why_tests_cant": "tests sample ten angles", "anchors": ["trackeddy/geometry.py: fit_ellipse"]}
{"id": "C43", "title": "The Gaussian surface is a rotated Gaussian", "statement": "gaussian(coords,x0,y0,sx,sy,theta) has its extremum `amplitude` at (x0,y0), the sign of the amplitude everywhere, magnitude at most |amplitude| with equality only at the centre, is point-symmetric about the centre, has period pi in theta, has e-folding exp(-1/2) at sx along direction theta and at sy across it.", "quantifier": "all parameters with non-zero sigmas, all points", "why_tests_cant": "universal", "anchors": ["trackeddy/geometry.py: gaussian"]}
{"id": "C44", "title": "The Gaussian fit always starts from a feasible point", "statement": "The bounds handed to the optimiser satisfy lower < upper strictly, contain the initial guess strictly, and never let a width reach zero, for every eddy with positive axes on a grid with non-zero mean spacing, in either coordinate direction.", "quantifier": "all eddies and grids", "why_tests_cant": "universal; sign cases of coordinates and angles", "anchors": ["trackeddy/geometry.py: Fit_Surface.construct_bounds"]}
{"id": "C45", "title": "A zero misfit means a perfect fit", "statement": "gaussian_residual is non-negative, and it is zero exactly when the Gaussian equals the data at every valid point.", "quantifier": "all data fields and parameters", "why_tests_cant": "universal", "anchors": ["trackeddy/geometry.py: gaussian_residual"]}
{"id": "C46", "title": "The Rossby radius approximation is physical", "statement": "approx_RD_lat is positive, at most 260 km (attained exactly at the equator), symmetric between hemispheres, and strictly decreasing away from the equator.", "quantifier": "all latitudes", "why_tests_cant": "universal", "anchors": ["trackeddy/physics.py: approx_RD_lat"]}
{"id": "C47", "title": "nan_treatment is applied", "statement": "With nan_treatment=True the tracked field is computed from data whose missing values were replaced by zero, for every choice of filter.", "quantifier": "every filter setting and field", "why_tests_cant": "depends on the combination of two options", "anchors": ["trackeddy/decorators.py: filter_data", "trackeddy/trackeddy.py: TrackEddy.treat_nan, TrackEddy._filter_data_"]}
{"id": "C48", "title": "An unknown filter is rejected", "statement": "If the filter attribute is set to an unsupported name, or the spatial filter setup holds an unsupported type or mode, an error is raised instead of tracking unfiltered data.", "quantifier": "every filter name, type and mode", "why_tests_cant": "ranges over all strings", "anchors": ["trackeddy/decorators.py: filter_data", "trackeddy/trackeddy.py: TrackEddy._filter_data_, TrackEddy._space_filter"]}
{"id": "C49", "title": "The zonal and meridional filters remove exactly the mean", "statement": "After the 'meridional' (resp. 'zonal') filter every row (resp. column) has mean zero, missing values stay missing, applying the filter again changes nothing, and it is linear.", "quantifier": "every field with missing values", "why_tests_cant": "universal", "anchors": ["trackeddy/trackeddy.py: TrackEddy._space_filter"]}
{"id": "C50", "title": "The uniform convolution filter uses a centred odd window", "statement": "The window side is kernel if odd and kernel+1 if even; the filter subtracts the window mean (zero beyond the border), so a constant field becomes 0 wherever the window fits, the result depends linearly on the data, and shifting the field shifts the result in the interior.", "quantifier": "every field and kernel size", "why_tests_cant": "universal", "anchors": ["trackeddy/trackeddy.py: TrackEddy._space_filter"]}
{"id": "C51", "title": "Coordinate identification is complete and unambiguous", "statement": "If the data variable has dimensions named with time/lon/lat in the usual way and the dataset has no 2-D coordinate variables, the constructor associates time, x and y to these dimensions in whatever order they come; if x or y cannot be found it raises ValueError.", "quantifier": "every list of dimension and variable names", "why_tests_cant": "ranges over all names and orders", "anchors": ["trackeddy/trackeddy.py: TrackEddy.identify_coords, TrackEddy._get_dims, TrackEddy._get_vars, TrackEddy.check_coords"]}
{"id": "C52", "title": "Adding an unrelated variable does not change the coordinates", "statement": "A dataset variable that is not a coordinate never replaces the longitude/latitude coordinates.", "quantifier": "every variable name", "why_tests_cant": "ranges over all names", "anchors": ["trackeddy/trackeddy.py: TrackEddy._get_vars, TrackEddy.check_coords"]}
{"id": "C53", "title": "An eddy record has one fixed set of columns", "statement": "Eddy.to_dict with default properties yields the same column names for every eddy that went through the full pipeline, each property under its own column, none overwritten by another; a property of unexpected shape raises.", "quantifier": "every attribute value and shape", "why_tests_cant": "shape dispatch over arbitrary array shapes", "anchors": ["trackeddy/eddy.py: Eddy.to_dict, Eddy.to_table"]}
{"id": "C54", "title": "The progress bar is well formed", "statement": "For every step 0 <= i < tf (double precision included) the progress bar consists of ten cells, '=' or ' ', around one arrow head, the number of '=' never decreases and reaches ten at the last step; the percentage shown lies between 0 and 100, never decreases and is 100 at the last step.", "quantifier": "all step counts", "why_tests_cant": "universal, and depends on the rounding of two divisions", "anchors": ["trackeddy/printfunc.py: Printer.timepercentprint"]}
{"id": "C55", "title": "Old Python versions are refused", "statement": "Printer refuses to work on Python versions before 3.10, as its error message says.", "quantifier": "all version numbers", "why_tests_cant": "string-tuple comparison over all versions", "anchors": ["trackeddy/printfunc.py: Printer.__init__"]}
{"id": "C56", "title": "Synthetic eddies are kept apart", "statement": "After checkposition returns, every eddy it repositioned is at least away_val*a and away_val*b away from every other eddy.", "quantifier": "every random sequence, every grid", "why_tests_cant": "depends on the random draws", "anchors": ["trackeddy/generator/field_generator.py: Generate_field.checkposition"]}
{"id": "C57", "title": "Repositioning synthetic eddies terminates", "statement": "checkposition gives up after 10000 attempts.", "quantifier": "every random sequence", "why_tests_cant": "needs a sequence of 10000 unlucky draws", "anchors": ["trackeddy/generator/field_generator.py: Generate_field.checkposition"]}
{"id": "C58", "title": "The synthetic field is laid out on its grid", "statement": "assemble_field returns for each cell (i,j) the sum of the Gaussians evaluated at the coordinates of that cell.", "quantifier": "every grid size and set of eddies", "why_tests_cant": "tests use square grids only", "anchors": ["trackeddy/generator/field_generator.py: Generate_field.assemble_field, Generate_field.pass_args"]}
{"id": "C59", "title": "The synthetic field can be reconstructed", "statement": "reconstruct_field returns the field of the generated eddies.", "quantifier": "every grid size and non-empty set of eddies", "why_tests_cant": "never executed by the tests", "anchors": ["trackeddy/generator/field_generator.py: Generate_field.reconstruct_field, Generate_field.pass_args"]}
{"id": "C60", "title": "Generator and fit use the same Gaussian", "statement": "The generator's twoD_Gaussian with angle theta is the surface that the fit describes by an angle determined by theta alone, for all widths and points.", "quantifier": "all parameters", "why_tests_cant": "universal", "anchors": ["trackeddy/generator/field_generator.py: Generate_field.twoD_Gaussian", "trackeddy/geometry.py: gaussian"]}
{"id": "C61", "title": "makeGaussian has the requested full width at half maximum", "statement": "makeGaussian equals 1 at the centre, 1/2 exactly at distance fwhm/2 from it, and decreases with distance; moveGaussian yields at each time step the Gaussian at that step's centre.", "quantifier": "all sizes, widths, centres", "why_tests_cant": "universal", "anchors": ["trackeddy/generator/gaussian_field_functions.py: makeGaussian, moveGaussian"]}
{"id": "C62", "title": "A random-walk step moves to a king-move neighbour", "statement": "make_random_walk returns a position differing from the given one by exactly `steps` in one or both coordinates.", "quantifier": "every random draw, position and step", "why_tests_cant": "ranges over random draws", "anchors": ["trackeddy/generator/field_generator.py: Generate_field.make_random_walk"]}
{"id": "C63", "title": "Contour vertices lie on grid edges crossed by the level", "statement": "Every vertex returned by extract_contours lies on an edge between two adjacent grid points, one with value above the level and one not above it, at the linearly interpolated position of the level.", "quantifier": "every grid, field and level", "why_tests_cant": "all fields; unbounded mesh sizes", "anchors": ["trackeddy/src/cntr.c: data_init, zone_crosser, curve_tracer", "trackeddy/geometry.py: extract_contours"]}
{"id": "C64", "title": "Contour tracing stays inside its arrays", "statement": "Tracing any level of any mesh never reads or writes outside the mesh-sized work arrays.", "quantifier": "every grid, field and level", "why_tests_cant": "memory safety of pointer arithmetic for all inputs", "anchors": ["trackeddy/src/cntr.c: data_init, zone_crosser, curve_tracer, cntr_trace"]}
{"id": "C65", "title": "A traced contour is closed or joins two boundary points", "statement": "Every traced curve either returns to its start edge or begins and ends on the mesh boundary, and tracing terminates.", "quantifier": "every grid, field and level", "why_tests_cant": "all fields", "anchors": ["trackeddy/src/cntr.c: zone_crosser, curve_tracer"]}
{"id": "C66", "title": "extract_contours pairs vertices with codes", "statement": "extract_contours returns equally many vertex arrays and code arrays, in corresponding order, each pair of equal length and starting with MOVETO followed by LINETO.", "quantifier": "every result of the tracer", "why_tests_cant": "all result lengths", "anchors": ["trackeddy/geometry.py: extract_contours", "trackeddy/src/cntr.c: build_cntr_list_v2, reorder"]}
{"id": "C67", "title": "Discard reasons are plotted with the colour of their legend entry", "statement": "For every discard reason the detection can produce, plot_eddy_detection_in_level draws the contour in the colour whose legend label names that reason.", "quantifier": "all reasons", "why_tests_cant": "finite but couples three tables in two files", "anchors": ["trackeddy/trackeddy.py: TrackEddy.plot_eddy_detection_in_level, TrackEddy._detect_one_level"]}
{"id": "C68", "title": "A contour vertex is mapped to the nearest grid point of the grid", "statement": "On a grid built from 1-D coordinates, every contour vertex is assigned the grid point nearest to it among all grid points, and any contour lying inside the grid can be mapped.", "quantifier": "every regular grid, every contour, every nearest-neighbour search", "why_tests_cant": "the preselection around the mean vertex depends on the size of the contour and on its position; a test sees one of each", "anchors": ["trackeddy/trackeddy.py:TrackEddy._data_in_contour"]}
{"id": "C69", "title": "The reported extremum sits on a grid point holding that value", "statement": "The position (maxima_y, maxima_x) reported for a contour is the position of a grid point of the dataset, the reported extremum is the field value there (0 when the field inside averages to 0), it has the reported sign, and no grid point on the contour exceeds it.", "quantifier": "every field with missing values, every 2-D coordinate arrays, every contour and nearest-neighbour answer for which the analysis does not raise", "why_tests_cant": "the index arithmetic (preselection shift, window shift, flat argmax) must be right for every position relative to the grid edges", "anchors": ["trackeddy/trackeddy.py:TrackEddy._data_in_contour", "trackeddy/trackeddy.py:TrackEddy._get_data_in_contour", "trackeddy/utils.py:_mask_data_in_contour"]}
{"id": "C70", "title": "fit_ellipse tells an ellipse from another curve", "statement": "If the best conic through the contour is not an ellipse, fit_ellipse reports that (the docstring promises a status that is true if and only if the fit corresponds to an ellipse); it returns finite axes only for ellipses.", "quantifier": "all contours for which the normal equations are solvable", "why_tests_cant": "universal; tests use contours of eddies only", "anchors": ["trackeddy/geometry.py: fit_ellipse"]}
{"id": "C71", "title": "The area of a circle about the reference point is that of the spherical cap", "statement": "area_latlon_polygon integrates in polar coordinates about (0 E, 0 N): great-circle distance and azimuth of each vertex; a closed contour whose vertices all lie at angular distance c from there gets an integer multiple (its number of turns) of the area 2 pi R^2 (1 - cos c) of the cap, in square kilometres with R = 6378.137 km.", "quantifier": "all closed contours on a circle about (0, 0), all longitudes and latitudes", "why_tests_cant": "universal over real coordinates", "anchors": ["trackeddy/geometry.py: area_latlon_polygon"]}
{"id": "C72", "title": "The grid follows the data", "statement": "For every cell [i,j] of the tracked snapshot, the longitude and latitude the tracker uses are those of that cell in the dataset, whatever the order of the dimensions.", "quantifier": "every dataset with 1-D coordinates", "why_tests_cant": "tests only use data with dimensions (time, lat, lon)", "anchors": ["trackeddy/trackeddy.py: TrackEddy.check_coords, TrackEddy._detect_one_level"]}
{"id": "C73", "title": "The legend of the multi-level figure names the right colours", "statement": "plot_eddy_detection_multilevel draws, for every level listed in its legend, the legend entry in the colour its contours are drawn in; different levels get different colours.", "quantifier": "every number of levels", "why_tests_cant": "nothing checks figures", "anchors": ["trackeddy/trackeddy.py: TrackEddy.plot_eddy_detection_multilevel"]}
{"id": "C74", "title": "A wrong number of eddies is rejected", "statement": "Generate_field raises ValueError when the number of eddies is a list or a tuple, and otherwise makes that many eddies.", "quantifier": "every argument type and number", "why_tests_cant": "tests pass integers only; the check can never fail", "anchors": ["trackeddy/generator/field_generator.py: Generate_field.__init__"]}
{"id": "C75", "title": "The margin surrounds the grid of a synthetic field", "statement": "A synthetic eddy placed at grid point (i, j) is centred at the coordinates x[i], y[j], whatever the margin.", "quantifier": "every grid, margin and position", "why_tests_cant": "ranges over grids and margins", "anchors": ["trackeddy/generator/field_generator.py: Generate_field.pass_args"]}
{"id": "C76", "title": "No part of a contour is missed or drawn twice", "statement": "On a grid with at least two rows and two columns, extract_contours goes exactly once through every grid edge between a point above the level and a point not above it (the repetition of the first vertex of a closed contour not counted), and through no other edge.", "quantifier": "every grid of at least 2 x 2 points, every field (including infinities and NaN) and level", "why_tests_cant": "ranges over all fields and all orders in which curves are found; start marks are erased and reused across two passes", "anchors": ["trackeddy/geometry.py: extract_contours", "trackeddy/src/cntr.c: data_init, curve_tracer, zone_crosser, cntr_trace"]}
{"id": "C77", "title": "Ambiguous grid cells are resolved by the mean of their corners", "statement": "Where two diagonally opposite corners of a grid cell are above the level and the other two are not, the contour lines cut off the corners that are on the other side of the level than the mean of the four corners.", "quantifier": "every grid, field, level and cell", "why_tests_cant": "ranges over all fields and over the order in which the two lines through the cell are traced", "anchors": ["trackeddy/src/cntr.c: zone_crosser"]}
{"id": "C78", "title": "Contours do not depend on uninitialised memory", "statement": "The work array of the tracer is not initialised when it is allocated, yet the result of extract_contours is a function of its arguments: it is the same whatever the memory held.", "quantifier": "every grid, field, level and every content of the allocated memory", "why_tests_cant": "memory contents are not under the control of a test", "anchors": ["trackeddy/src/cntr.c: cntr_init, data_init, curve_tracer"]}
{"id": "C79", "title": "The table of a run is made of accepted contours", "statement": "When time_tracking(online=True) returns, the table is exactly a union of whole contours: each (identifier, time) carries all the vertices and the record of one contour line that extract_contours finds in the data of that step at one of the requested non-zero levels and that meets every acceptance condition; no detection is used twice, identifiers are 0..n-1 and the rows are sorted. No file is written.", "quantifier": "every dataset, grid, filter, range of steps, list of levels, criteria, numerical oracle (fits, similarity, nearest-neighbour search) and every history of earlier runs that returned", "why_tests_cant": "ranges over all data and all histories of the process; the link between the final rows and the field passes through every stage", "anchors": ["trackeddy/trackeddy.py: TrackEddy.time_tracking, _detect_snapshot, _detect_one_level", "trackeddy/utils.py", "trackeddy/geometry.py: extract_contours", "trackeddy/src/cntr.c"]}
{"id": "C80", "title": "With one level nothing is lost", "statement": "With one non-zero level every contour of every analysed step that meets the acceptance conditions is in the table of the run, once.", "quantifier": "every dataset, grid, filter, range of steps, criteria and numerical oracle; every history of earlier runs that returned", "why_tests_cant": "a test cannot show that nothing is dropped for all data", "anchors": ["trackeddy/trackeddy.py: TrackEddy.time_tracking, _detect_snapshot, _detect_one_level", "trackeddy/utils.py"]}
{"id": "C81", "title": "Runs that return do not influence each other", "statement": "The outcome of time_tracking (table, files, exception) is the same in a new process and after any sequence of runs, of any objects, none of which raised.", "quantifier": "every object, every arguments and every finite sequence of earlier runs that returned", "why_tests_cant": "the state kept by the decorators spans calls and objects; histories are unbounded", "anchors": ["trackeddy/decorators.py: check_return_eddies", "trackeddy/trackeddy.py: TrackEddy.time_tracking"]}
{"id": "C82", "title": "Only the analysed steps matter", "statement": "The outcome of time_tracking depends on the snapshots of the analysed steps only: changing, adding or removing other snapshots (their number when tf is given), or the contents of uninitialised memory, changes nothing.", "quantifier": "every pair of datasets that agree on the analysed steps, all memory contents, all arguments", "why_tests_cant": "quantifies over pairs of runs and over memory contents", "anchors": ["trackeddy/trackeddy.py: TrackEddy.time_tracking, _detect_snapshot", "trackeddy/src/cntr.c"]}
{"id": "C83", "title": "A failed run does not influence the next one", "statement": "After a run that raised, a new run of time_tracking gives the result that it would give in a new process.", "quantifier": "every history in which a run raised", "why_tests_cant": "the state is hidden and depends on where the exception occurred", "anchors": ["trackeddy/decorators.py: check_return_eddies", "trackeddy/trackeddy.py: _detect_one_level"]}
{"id": "C84", "title": "A longer run extends a shorter one", "statement": "If the run over the steps t0, .., tf2 - 1 returns a table, the run over the steps t0, .., tf1 - 1 (tf1 <= tf2) returns one too, and the table of the longer run is that of the shorter run with rows of the steps tf1, .., tf2 - 1 added: no identifier, time or value of an earlier step changes.", "quantifier": "every dataset, grid, criteria, levels and numerical oracle; every t0 <= tf1 <= tf2; every history of earlier runs that returned", "why_tests_cant": "quantifies over pairs of runs of any length and over process histories", "anchors": ["trackeddy/trackeddy.py: TrackEddy.time_tracking, _detect_snapshot, _detect_one_level", "trackeddy/utils.py"]}
{"id": "C85", "title": "How one more step is linked, in a whole run", "statement": "Adding step t to a run adds exactly the contours found at the requested levels of step t and merged over the levels, each as one eddy; such an eddy gets the identifier of the nearest known track if the latest position of that track is within the radius of the eddy, and otherwise a new identifier. (When no two eddies of a level are within their radius of the same eddy of an earlier level, see C15.)", "quantifier": "every dataset, grid, criteria, levels and numerical oracle; every step; every history of earlier runs that returned", "why_tests_cant": "the rule spans contour tracing, detection, level merging and tracking, for all data", "anchors": ["trackeddy/trackeddy.py: TrackEddy.time_tracking, _detect_snapshot, _detect_one_level", "trackeddy/utils.py", "trackeddy/src/cntr.c"]}
{"id": "C86", "title": "When a run over several steps returns a table", "statement": "A run returns a table exactly when each of its steps, analysed alone, returns one and either at most one of the steps has eddies or the run starts at step 0 and the steps with eddies come before all others.", "quantifier": "every dataset, grid, criteria, levels and numerical oracle; every range of steps; every history of earlier runs that returned", "why_tests_cant": "an if-and-only-if over all data and ranges of steps", "anchors": ["trackeddy/trackeddy.py: TrackEddy.time_tracking, _detect_snapshot, _detect_one_level", "trackeddy/utils.py"]}
{"id": "C87", "title": "What an offline run writes", "statement": "With the csv or json format, if each step can be analysed alone, a run that is not online returns the table of the first step with eddies and writes one file for every later step with eddies, in order, holding exactly the rows that the analysis of that step alone returns.", "quantifier": "every dataset, grid, criteria, levels and numerical oracle; every range of steps with eddies in at least one of them; every history of earlier runs that returned", "why_tests_cant": "compares the files of one run with the results of unboundedly many other runs", "anchors": ["trackeddy/trackeddy.py: TrackEddy.time_tracking, _detect_snapshot, _detect_one_level", "trackeddy/utils.py"]}
{"id": "C88", "title": "Contour vertices in double arithmetic", "statement": "With the arithmetic of double (without overflow), every vertex returned by extract_contours is, up to 2^-48 of the larger coordinate of the two grid points (plus 2^-1073), the linearly interpolated position of the level on an edge crossed by the level; a coordinate in which the two grid points agree is reproduced exactly.", "quantifier": "every grid and field of doubles, every level, any contents of uninitialised memory", "why_tests_cant": "rounding errors for all inputs", "anchors": ["trackeddy/src/cntr.c: zone_crosser, curve_tracer", "trackeddy/geometry.py: extract_contours"]}
{"id": "C89", "title": "In double arithmetic contour vertices stay inside the grid", "statement": "Every vertex returned by extract_contours lies, coordinate by coordinate, between the two grid points of its edge.", "quantifier": "every grid and field of doubles, every level", "why_tests_cant": "rounding errors for all inputs", "anchors": ["trackeddy/src/cntr.c: zone_crosser, curve_tracer", "trackeddy/geometry.py: extract_contours"]}
{"id": "C90", "title": "The work of comparing two curves is bounded", "statement": "frdist evaluates its recursion at most three times for every pair of vertices that is compared, so that two curves of up to 300 points need at most 268802 evaluations.", "quantifier": "every pair of curves, with or without missing (NaN) coordinates", "why_tests_cant": "number of evaluations for all inputs", "anchors": ["trackeddy/geometry.py: frdist, _c"]}
{"id": "C91", "title": "Missing coordinates are not passed over", "statement": "If a vertex of one of the curves has a coordinate that is NaN, frdist and compute_similarity return NaN and not a number.", "quantifier": "every pair of curves, every position of the missing vertex", "why_tests_cant": "ranges over all curves and all sets of missing vertices", "anchors": ["trackeddy/geometry.py: compute_similarity, frdist, arc_length"]}
{"id": "C92", "title": "Accuracy of the Frechet distance in double arithmetic", "statement": "For curves of doubles of size up to 2^510 the distance computed by frdist differs from the discrete Frechet distance of the (thinned) curves by at most 2^-51 of it, plus 2^-535.", "quantifier": "every pair of curves of doubles", "why_tests_cant": "rounding errors for all inputs", "anchors": ["trackeddy/geometry.py: frdist, _c"]}
{"id": "C93", "title": "Similarity in double arithmetic", "statement": "Computed with doubles, compute_similarity returns NaN or a value between 0 and 1, does not depend on the order of the curves, and is 1 for a curve of positive length with itself.", "quantifier": "every pair of curves of doubles, including overflow, underflow and NaN", "why_tests_cant": "rounding errors for all inputs", "anchors": ["trackeddy/geometry.py: compute_similarity, frdist, arc_length"]}
{"id": "C94", "title": "Eddies that are not to interact are kept apart in every synthetic field", "statement": "With the option no_interaction (or Nint), in every field that assemble_field returns the centres of any two eddies are at least five times the radius a and five times the radius b apart.", "quantifier": "every grid, margin, number of eddies and fields, and every sequence of random draws", "why_tests_cant": "ranges over all random draws", "anchors": ["trackeddy/generator/field_generator.py: Generate_field.assemble_field, Generate_field.checkposition"]}
{"id": "C95", "title": "A single field can be tracked", "statement": "time_tracking on a dataset without a time dimension treats the field as one step; with tf = n as n identical steps.", "quantifier": "every field, level list and state of the process", "why_tests_cant": "ranges over all fields", "anchors": ["trackeddy/trackeddy.py: TrackEddy.time_tracking"]}
{"id": "C96", "title": "Tracks follow the eddies when the data resolve their motion", "statement": "If at every step each eddy seen before lies within its radius of its last position, strictly closer to it than to the last position of any other eddy, and each new eddy has no last position within its radius, then the table of the run gives every physical eddy one identifier, always the same, numbered in order of appearance, and contains every detected row.", "quantifier": "every series of snapshots and every motion of the eddies with these properties", "why_tests_cant": "ranges over all histories of motion", "anchors": ["trackeddy/trackeddy.py: TrackEddy.time_tracking, TrackEddy._detect_snapshot", "trackeddy/utils.py: track_online, _merge_reindex_eddies"]}
{"id": "C97", "title": "A field that does not change has tracks that do not change", "statement": "When all steps show the same field, the table of the run is the table of the first step repeated at every time, with the same identifiers.", "quantifier": "every field, every number of steps, every state of the process", "why_tests_cant": "ranges over all fields and run lengths", "anchors": ["trackeddy/trackeddy.py: TrackEddy.time_tracking, TrackEddy._detect_snapshot", "trackeddy/utils.py: track_online, _merge_reindex_eddies"]}
{"id": "C98", "title": "A contour keeps its area when it is moved along a parallel", "statement": "Adding the same number to all longitudes of a contour does not change the area reported for it.", "quantifier": "every contour and every shift", "why_tests_cant": "ranges over all contours and shifts", "anchors": ["trackeddy/geometry.py: area_latlon_polygon", "trackeddy/eddy.py: Eddy"]}
{"id": "C99", "title": "Accuracy of the area of a contour", "statement": "The area reported for a contour differs from the area the contour sweeps about the point 0E 0N of the sphere by at most 1/24 of the sum over its segments of |change of azimuth| times the squared change of distance (angles in radians, times the squared radius).", "quantifier": "every contour, closed or not, of any number of vertices", "why_tests_cant": "an error bound for all contours; tests only sample some", "anchors": ["trackeddy/geometry.py: area_latlon_polygon", "trackeddy/eddy.py: Eddy"]}
{"id": "C100", "title": "What a stopped offline run leaves on disk", "statement": "An offline run that is stopped at any moment (killed, out of disk space, power cut after the last write) leaves complete files for a first part of the snapshots, at most one file with only the beginning of its text, and every other file as it was.", "quantifier": "every run, every file format, every way the text is handed to the file in pieces, every point at which the run is stopped", "why_tests_cant": "crash points: no test stops a run after every write", "anchors": ["trackeddy/utils.py: store_snapshot", "trackeddy/trackeddy.py: TrackEddy.time_tracking"]}
{"id": "C101", "title": "A stopped offline run can be repeated", "statement": "Repeating a stopped offline run with the same arguments, in the same or a new process, leaves the files an uninterrupted run leaves.", "quantifier": "every run, every point at which the first attempt is stopped, every earlier content of the directory", "why_tests_cant": "crash points and histories", "anchors": ["trackeddy/utils.py: store_snapshot", "trackeddy/trackeddy.py: TrackEddy.time_tracking"]}
{"id": "C102", "title": "A stopped offline run can be continued", "statement": "An offline run that was stopped while snapshot t was being written can be continued by a run that starts at step t: afterwards the directory holds what an uninterrupted run leaves.", "quantifier": "every run, every point at which it is stopped", "why_tests_cant": "crash points and histories", "anchors": ["trackeddy/utils.py: store_snapshot", "trackeddy/trackeddy.py: TrackEddy.time_tracking"]}
{"id": "C103", "title": "The contours are exactly the lines of the level", "statement": "The straight lines drawn for a level are, cell by cell of the grid, exactly those between the points where the level meets the sides of the cell; when all four sides are met, the lines cut off the two corners on the other side of the level than the mean of the corners. None is missing and none is added.", "quantifier": "every rectangular or curvilinear grid with at least one point, every field, every level", "why_tests_cant": "ranges over all grids, fields and levels", "anchors": ["trackeddy/geometry.py: extract_contours", "trackeddy/src/cntr.c"]}
{"id": "C104", "title": "Reversing the sign of the field reverses nothing in the contours", "statement": "The contours of a field at a level and the contours of the field with all signs reversed at the reversed level are the same lines, so cyclones and anticyclones are treated alike.", "quantifier": "every grid, field and level", "why_tests_cant": "ranges over all fields and levels", "anchors": ["trackeddy/geometry.py: extract_contours", "trackeddy/src/cntr.c"]}
{"id": "C105", "title": "The order of the axes does not matter for the contours", "statement": "Storing latitudes from north to south, longitudes from east to west, or the two dimensions in the other order (coordinates and field alike) gives the same contour lines.", "quantifier": "every grid, field and level", "why_tests_cant": "ranges over all grids and fields", "anchors": ["trackeddy/geometry.py: extract_contours", "trackeddy/src/cntr.c"]}
{"id": "C106", "title": "Units do not matter for the contours", "statement": "Multiplying field and level by the same positive number and adding the same offset to both leaves the contours unchanged; converting a coordinate by a linear formula converts the vertices by this formula and changes nothing else.", "quantifier": "every grid, field, level and conversion", "why_tests_cant": "ranges over all fields and conversions", "anchors": ["trackeddy/geometry.py: extract_contours", "trackeddy/src/cntr.c"]}
{"id": "C107", "title": "The estimated time", "statement": "The estimated total time shown with the progress bar is the elapsed time times the number of steps divided by the number of steps done, to within half a second and one part in 10^14 (double precision included).", "quantifier": "all step counts and elapsed times", "why_tests_cant": "depends on the rounding of four operations for all step counts", "anchors": ["trackeddy/printfunc.py: Printer.timepercentprint"]}
{"id": "C108", "title": "The steps asked for", "statement": "A run from t0 reports eddies of exactly those steps of the range that have some, and none of a step before t0, whether or not an end tf is given.", "quantifier": "all data, ranges, levels and earlier runs", "why_tests_cant": "no finite set of ranges and data covers the default of the end", "anchors": ["trackeddy/trackeddy.py: TrackEddy.time_tracking"]}
{"id": "C109", "title": "Levels in any sequence", "statement": "The levels of a run can be given as an array, a list or a tuple; the result is the same.", "quantifier": "all data, ranges and lists of levels", "why_tests_cant": "the result depends on the type of the argument for every dataset", "anchors": ["trackeddy/trackeddy.py: TrackEddy.time_tracking", "trackeddy/trackeddy.py: TrackEddy._detect_snapshot"]}
{"id": "C110", "title": "The figures show what was found", "statement": "The figure of a level shows each eddy's contour and each dropped contour's centre in the colour of its reason, after any earlier analysis; the figure of a snapshot shows every eddy in a colour that tells its level. Both can be drawn whatever was found.", "quantifier": "all contours, levels, histories of analyses and numbers of colours", "why_tests_cant": "ranges over all tables and over the history of the object", "anchors": ["trackeddy/trackeddy.py: TrackEddy.plot_eddy_detection_in_level", "trackeddy/trackeddy.py: TrackEddy.plot_eddy_detection_multilevel"]}
{"id": "C111", "title": "Levels never reached", "statement": "A level that no field of the run reaches (all values are at most the level, or all above it) can be left out: same table, files, exceptions and later behaviour of the process.", "quantifier": "all data, lists of levels, positions of the level, modes and states of the process", "why_tests_cant": "every dataset and every state of the process", "anchors": ["trackeddy/trackeddy.py: TrackEddy.time_tracking", "trackeddy/trackeddy.py: TrackEddy._detect_one_level", "trackeddy/src/cntr.c: cntr_trace"]}
{"id": "C112", "title": "Contours of a part of the domain", "statement": "The lines of a level in a cell depend only on the positions and values at its four corners; so the contours of a part of the domain are those of the whole domain in the cells of the part.", "quantifier": "all grids, values, levels and rectangles of the grid", "why_tests_cant": "a walk along the whole contour decides what is drawn in a cell; all fields and rectangles", "anchors": ["trackeddy/src/cntr.c: curve_tracer", "trackeddy/src/cntr.c: cntr_trace", "trackeddy/geometry.py: extract_contours"]}
{"id": "C113", "title": "Repeated levels", "statement": "Giving a level twice changes nothing: each eddy is reported once.", "quantifier": "all data, steps and levels", "why_tests_cant": "every field and every geometry of eddies", "anchors": ["trackeddy/trackeddy.py: TrackEddy.time_tracking", "trackeddy/trackeddy.py: TrackEddy._detect_snapshot"]}
{"id": "C114", "title": "Order of the levels", "statement": "The eddies of a snapshot do not depend on the order in which the levels are given, apart from their numbering.", "quantifier": "all data, steps and permutations of the levels", "why_tests_cant": "all permutations and all geometries of eddies", "anchors": ["trackeddy/trackeddy.py: TrackEddy.time_tracking", "trackeddy/trackeddy.py: TrackEddy._detect_snapshot"]}
{"id": "C115", "title": "Contours away from the border are closed", "statement": "When the border of the field lies on one side of the level, every contour, and so every reported eddy, ends exactly where it begins.", "quantifier": "all fields, levels, steps and arithmetics (rounding, missing values)", "why_tests_cant": "every field and every rounding of the vertices", "anchors": ["trackeddy/src/cntr.c: cntr_trace", "trackeddy/geometry.py: extract_contours", "trackeddy/trackeddy.py: TrackEddy.time_tracking"]}
{"id": "C116", "title": "Levels with contours", "statement": "A level has contours exactly if some grid value is above it and some is not.", "quantifier": "all grids with at least two rows and two columns, all values (missing ones included) and levels", "why_tests_cant": "ranges over all fields; the tracer finds contours by a search along the grid", "anchors": ["trackeddy/src/cntr.c: cntr_trace", "trackeddy/geometry.py: extract_contours"]}
{"id": "C117", "title": "The reported extremum", "statement": "In every row of a table the position of the extremum is a grid point, the extremum is the value of the field of that step there, and the sign is that of the value.", "quantifier": "all data, steps, levels and states of the process", "why_tests_cant": "ranges over all fields and runs", "anchors": ["trackeddy/trackeddy.py: TrackEddy._data_in_contour", "trackeddy/trackeddy.py: TrackEddy.time_tracking"]}
{"id": "C118", "title": "Contours of different levels never meet", "statement": "On a grid given by longitudes and latitudes, the contours of two different levels have no point in common, not even in cells where all four sides are crossed.", "quantifier": "all grids with increasing or decreasing axes, all fields, all pairs of levels", "why_tests_cant": "all positions on all pairs of lines", "anchors": ["trackeddy/src/cntr.c: curve_tracer, cntr_trace", "trackeddy/geometry.py: extract_contours"]}
{"id": "C119", "title": "Contours do not cross themselves or each other", "statement": "When no grid value is equal to the level, all points of the contours are different, except that a closed contour ends where it begins, and two lines of the contours meet at most in a common end.", "quantifier": "all grids with increasing or decreasing axes, all fields, all levels no value takes", "why_tests_cant": "all positions on all pairs of lines", "anchors": ["trackeddy/src/cntr.c: curve_tracer, cntr_trace", "trackeddy/geometry.py: extract_contours"]}
{"id": "C120", "title": "Data with a single row or column", "statement": "Data with a single latitude or a single longitude can be analysed; they have no contours, so the result is an empty table.", "quantifier": "all data with one row or one column, all steps, levels, modes and states of the process", "why_tests_cant": "all values and levels", "anchors": ["trackeddy/trackeddy.py: TrackEddy.time_tracking, TrackEddy._detect_snapshot", "trackeddy/src/cntr.c: cntr_init"]}
{"id": "C121", "title": "Which way round contours are drawn", "statement": "Going along a closed contour in the order in which its vertices are listed, the values above the level are on the left at every step (so contours run anticlockwise around highs and clockwise around lows, on axes that rise); an open line keeps the higher values on the same side from end to end; and reversing the sign of the field and of the level reverses the direction of every closed contour.", "quantifier": "all fields, levels, grids (for left and right in the plane: axes rising in both directions, fields without a value equal to the level), fuels and contents of memory; the first part for any arithmetic", "why_tests_cant": "all fields and levels", "anchors": ["trackeddy/src/cntr.c: zone_crosser, curve_tracer, cntr_trace"]}
{"id": "C122", "title": "The fitted ellipse does not depend on the order of the vertices", "statement": "Fitting an ellipse to a contour gives the same ellipse, axes and orientation (or the same error) for every order in which the vertices are listed, in particular for the opposite direction.", "quantifier": "all contours, orders and linear solvers (real arithmetic)", "why_tests_cant": "all contours and permutations", "anchors": ["trackeddy/geometry.py: fit_ellipse"]}
{"id": "C123", "title": "The fitted ellipse does not depend on where a closed contour starts", "statement": "A closed contour has the same fitted ellipse from whichever of its vertices it is listed.", "quantifier": "all closed contours, starting vertices and exact linear solvers", "why_tests_cant": "all contours", "anchors": ["trackeddy/geometry.py: fit_ellipse"]}
{"id": "C124", "title": "The similarity of a contour and its fitted ellipse is a matter of shape", "statement": "A closed contour has the same similarity with its fitted ellipse whichever way round and from whichever vertex it is listed, so highs and lows of the same shape are judged alike.", "quantifier": "all polygons on circles with up to 299 vertices, directions and starting vertices; all fitted ellipses", "why_tests_cant": "all contours, directions and starting vertices", "anchors": ["trackeddy/geometry.py: fit_ellipse, compute_similarity, frdist", "trackeddy/trackeddy.py: TrackEddy._detect_one_level"]}
{"id": "C125", "title": "What closed contours enclose", "statement": "With inside and outside given by the even-odd rule: no grid point on the border of the grid is inside a closed contour; of two neighbouring grid points one is inside and the other outside exactly if the contour has a vertex strictly between them; and of the grid points next to a closed contour those inside are all above the level and those outside all below, or the other way round.", "quantifier": "all fields, levels, grids, fuels and contents of memory, and all their closed contours (on the mesh: any arithmetic; in the plane: exact arithmetic, monotone axes, fields without a value equal to the level)", "why_tests_cant": "contours of any length and shape", "anchors": ["trackeddy/src/cntr.c: zone_crosser, curve_tracer, cntr_trace", "trackeddy/geometry.py: extract_contours"]}
{"id": "C126", "title": "Closed contours enclose an extremum", "statement": "Inside every closed contour there is a grid point, not on the border, that is above the level and has no higher neighbour, or that is below the level and has no lower neighbour.", "quantifier": "all fields, levels, grids, fuels and contents of memory, and all their closed contours (on the mesh: any arithmetic; in the plane: exact arithmetic, monotone axes, fields without a value equal to the level)", "why_tests_cant": "all fields", "anchors": ["trackeddy/src/cntr.c: zone_crosser, curve_tracer, cntr_trace", "trackeddy/geometry.py: extract_contours"]}
{"id": "C127", "title": "Closed contours are nested or apart", "statement": "Of two closed contours of a field, of the same level or of two levels, one has every grid point inside that the other one has inside, or no grid point is inside both: contours never overlap in part.", "quantifier": "all fields, levels, grids, fuels and contents of memory, and all their closed contours (on the mesh: any arithmetic; in the plane: exact arithmetic, monotone axes, fields without a value equal to the level); pairs of levels in the plane, one level on the mesh", "why_tests_cant": "pairs of contours of any length, all fields and pairs of levels", "anchors": ["trackeddy/src/cntr.c: zone_crosser, curve_tracer, cntr_trace", "trackeddy/geometry.py: extract_contours"]}
{"id": "C128", "title": "How many closed contours a level can have", "statement": "A level has at most as many closed contours as the grid has points that are not on its border.", "quantifier": "all fields, levels, grids, fuels and contents of memory, and all their closed contours (on the mesh: any arithmetic; in the plane: exact arithmetic, monotone axes, fields without a value equal to the level)", "why_tests_cant": "all fields", "anchors": ["trackeddy/src/cntr.c: zone_crosser, curve_tracer, cntr_trace", "trackeddy/geometry.py: extract_contours"]}
{"id": "C129", "title": "Which crossings belong to one closed contour", "statement": "If a closed contour goes between a higher grid point p and a lower neighbour q, it goes between another higher p' and its lower neighbour q' exactly if p and p' are connected over points above the level and q and q' are connected over points below it (steps along rows and columns, and across a cell whose mean is on that side). So closed contours correspond to pairs of a region above and a region below that touch: a region never gets two contours towards the same surroundings.", "quantifier": "all fields, levels, grids, fuels and contents of memory (on the mesh: any arithmetic; in the plane: exact arithmetic, monotone axes, fields without a value equal to the level); all closed contours and all pairs of crossed sides", "why_tests_cant": "regions of any shape and size", "anchors": ["trackeddy/src/cntr.c: zone_crosser, curve_tracer, cntr_trace", "trackeddy/geometry.py: extract_contours"]}
{"id": "C130", "title": "One hill, one contour, at most one eddy per level", "statement": "If the border of the field is on one side of the level, some point is on the other side, and the points of each side are connected, there is exactly one contour, it is closed, and the points inside it are exactly those not on the side of the border. A run in which every field is like that for every level has, at every step, at most as many eddies as there are levels different from zero.", "quantifier": "all fields, levels, grids, fuels and contents of memory (on the mesh: any arithmetic; in the plane: exact arithmetic, monotone axes, fields without a value equal to the level); all runs over such fields, any history of the process", "why_tests_cant": "hills of any shape; all runs", "anchors": ["trackeddy/src/cntr.c: zone_crosser, curve_tracer, cntr_trace", "trackeddy/geometry.py: extract_contours", "trackeddy/trackeddy.py: TrackEddy.time_tracking, _detect_snapshot, _detect_one_level"]}
{"id": "C131", "title": "Every eddy of a run encloses an extremum", "statement": "Every row of the table belongs to an eddy whose outline is closed and has inside it a grid point, not on the border, that is above the level and has no higher neighbour, or is not above the level and has no lower neighbour.", "quantifier": "all runs in which, at every step, the border of the field lies on one side of every level that is not zero (so that all contours are closed); all fields, levels, arithmetics and histories of the process", "why_tests_cant": "all fields and runs", "anchors": ["trackeddy/trackeddy.py: TrackEddy.time_tracking, TrackEddy._detect_snapshot", "trackeddy/geometry.py: extract_contours"]}
{"id": "C132", "title": "The eddies of a step are nested or apart", "statement": "Of two eddies recorded at the same step, one has every grid point inside its outline that the other one has inside, or no grid point is inside both. For eddies of one level this holds in every arithmetic; for eddies of two levels if the mean of four values does not depend on the order in which they are added.", "quantifier": "all runs in which, at every step, the border of the field lies on one side of every level that is not zero (so that all contours are closed); all fields, levels, arithmetics and histories of the process", "why_tests_cant": "all fields, levels and pairs of eddies", "anchors": ["trackeddy/trackeddy.py: TrackEddy.time_tracking, TrackEddy._detect_snapshot", "trackeddy/geometry.py: extract_contours"]}
{"id": "C133", "title": "How many eddies a step can have", "statement": "A step has at most as many eddies as there are levels different from zero times grid points that are not on the border.", "quantifier": "all runs in which, at every step, the border of the field lies on one side of every level that is not zero (so that all contours are closed); all fields, levels, arithmetics and histories of the process", "why_tests_cant": "all fields and runs", "anchors": ["trackeddy/trackeddy.py: TrackEddy.time_tracking, TrackEddy._detect_snapshot", "trackeddy/geometry.py: extract_contours"]}
{"id": "C134", "title": "One Gaussian eddy has one contour per level", "statement": "In a field that holds the values of a single Gaussian, every level that some grid point is beyond (above it for a hill, below it for a basin) and no point of the border is, has exactly one contour; it is closed and the grid points inside are those beyond the level.", "quantifier": "all Gaussians (amplitude of either sign, centre, widths, angle), grids with monotone axes, levels that are not the value of a grid point", "why_tests_cant": "all parameters of the Gaussian and all grids; a test has a few", "anchors": ["trackeddy/geometry.py: extract_contours, gaussian", "trackeddy/src/cntr.c: Cntr_trace"]}
{"id": "C135", "title": "The longitude at which a global grid starts does not matter", "statement": "Starting a grid around the globe at another column, the columns before it coming last with longitudes 360 degrees larger, gives the same contours, those in the columns that were moved 360 degrees further; in particular a closed contour is found for one start exactly if it is found for the other.", "quantifier": "all fields, grids, levels and numbers of columns moved", "why_tests_cant": "all fields and all numbers of columns moved", "anchors": ["trackeddy/geometry.py: extract_contours", "trackeddy/trackeddy.py: TrackEddy._detect_snapshot"]}
{"id": "C136", "title": "The convention for longitudes does not matter", "statement": "Counting the longitudes of the grid and of a contour from another meridian (for example 0 to 360 degrees instead of -180 to 180) changes the data that are attributed to the contour only in the reported longitude.", "quantifier": "all fields, grids with monotone axes, contours and meridians", "why_tests_cant": "all fields, contours and meridians; the tolerance used depends on the longitude itself", "anchors": ["trackeddy/trackeddy.py: TrackEddy._data_in_contour"]}
{"id": "C137", "title": "The unit of the field does not matter", "statement": "Giving the field and the levels in another unit (all values multiplied by one positive factor), with arithmetic that is exact for this factor and a filter and fit that commute with it, changes in the whole tracking run only the columns that hold values of the field (level, maximum), by the same factor: the same eddies are found, with the same positions, identifiers and signs, at the same steps, and the same error is raised if one is raised.", "quantifier": "all fields, series, levels, positive factors, options and histories of the process", "why_tests_cant": "all fields, levels and factors, through every stage of the run; tests try one unit", "anchors": ["trackeddy/trackeddy.py: TrackEddy.time_tracking", "trackeddy/trackeddy.py: TrackEddy._detect_snapshot, _detect_one_level", "trackeddy/trackeddy.py: TrackEddy._data_in_contour", "trackeddy/src/cntr.c: zone_crosser, curve_tracer, cntr_trace"]}
{"id": "C138", "title": "The zero of the field does not matter", "statement": "Adding one constant to the field and to the levels changes in a tracking run only the columns that hold values of the field, by this constant.", "quantifier": "all fields, series, levels, constants, options and histories of the process", "why_tests_cant": "all fields and constants, through every stage of the run; tests have fields around zero", "anchors": ["trackeddy/trackeddy.py: TrackEddy.time_tracking", "trackeddy/trackeddy.py: TrackEddy._detect_snapshot, _detect_one_level", "trackeddy/trackeddy.py: TrackEddy._data_in_contour"]}
{"id": "C139", "title": "Highs and lows are treated alike", "statement": "Reversing the sign of the field, with the vertices of the same contour listed in any order, gives the analysis of the contour the opposite sign of the eddy and the opposite extremum at the same position, or the same error, if the nearest-neighbour search answers each vertex on its own.", "quantifier": "all searches, grids, fields, contours and orders of the vertices", "why_tests_cant": "all fields and contours; tests have a few hills", "anchors": ["trackeddy/trackeddy.py: TrackEddy._data_in_contour", "trackeddy/trackeddy.py: TrackEddy._get_data_in_contour", "trackeddy/utils.py: _mask_data_in_contour"]}
{"id": "C140", "title": "The direction in which latitudes and longitudes are stored does not matter", "statement": "Storing the latitudes from north to south instead of from south to north, or the longitudes from east to west, with the field accordingly, does not change the sign, the extremum and the position of the extremum of an eddy.", "quantifier": "all searches for the nearest point, grids, fields, contours and both directions of both axes", "why_tests_cant": "all grids, fields and contours; tests have one direction", "anchors": ["trackeddy/trackeddy.py: TrackEddy._data_in_contour", "trackeddy/trackeddy.py: TrackEddy._get_data_in_contour", "trackeddy/utils.py: _mask_data_in_contour"]}
{"id": "C141", "title": "The vertex from which a closed contour is listed does not matter", "statement": "The analysis of a closed contour gives the same sign, extremum and position of the extremum from whichever of its vertices the list of vertices begins.", "quantifier": "all searches for the nearest point, grids, fields, closed contours and first vertices", "why_tests_cant": "all contours and first vertices; tests have the one that the tracer starts from", "anchors": ["trackeddy/trackeddy.py: TrackEddy._data_in_contour", "trackeddy/trackeddy.py: TrackEddy._get_data_in_contour", "trackeddy/utils.py: _mask_data_in_contour"]}
{"id": "C142", "title": "The sign of an eddy computed in floating point is the sign of the mean", "statement": "When the field is in single or double precision and its values inside a contour are added in that precision, in whatever order and grouping, the sign reported for the contour is that of the exact mean of the values inside, and the extremum reported is the first largest (smallest) of them.", "quantifier": "all binary formats, fields, sets of cells and orders of the additions", "why_tests_cant": "all fields and orders of additions; rounding errors that decide a sign are rare in test data", "anchors": ["trackeddy/utils.py: _mask_data_in_contour"]}
{"id": "C143", "title": "Stricter criteria never add eddies", "statement": "Making the identification criteria stricter (larger ellipse_fit, smaller eccentricity, larger gaussian_fit, smaller max_area) can only take eddies out of the table of a time step.", "quantifier": "all objects, levels, time steps and pairs of criteria, one stricter than the other", "why_tests_cant": "all pairs of criteria and all fields; tests use one set of criteria", "anchors": ["trackeddy/trackeddy.py: TrackEddy.__init__", "trackeddy/trackeddy.py: TrackEddy._detect_one_level", "trackeddy/trackeddy.py: TrackEddy._detect_snapshot"]}
{"id": "C144", "title": "Skipping the Gaussian fit never removes eddies", "statement": "With skip_gaussian_fit=True every eddy that is found with the fit is found too, with the same columns except those of the Gaussian, which then hold no number and the error 0.", "quantifier": "all objects, levels and time steps", "why_tests_cant": "all fields and outcomes of the fit; tests have a few fields whose fit succeeds", "anchors": ["trackeddy/trackeddy.py: TrackEddy.__init__", "trackeddy/trackeddy.py: TrackEddy._detect_one_level", "trackeddy/trackeddy.py: TrackEddy._detect_snapshot"]}
{"id": "C145", "title": "The direction of time does not matter for the tracks", "statement": "Going through the same fields in the opposite order puts the same eddies into one track.", "quantifier": "all series, levels, grids and numbers of steps", "why_tests_cant": "all histories of eddies; tests track forwards only", "anchors": ["trackeddy/trackeddy.py: TrackEddy.time_tracking, TrackEddy._detect_snapshot", "trackeddy/utils.py: track_online, _detect_nearest, _update_counter"]}
{"id": "C146", "title": "Accuracy of the length of a contour in double arithmetic", "statement": "For vertices that are doubles of moderate size the computed length of a contour is a number and differs from the length of the polyline by at most a relative error of 2^-51 per segment (plus an amount below the smallest normal double for each).", "quantifier": "all contours with up to 2^51 segments and coordinates up to 2^510, and every distance function of the library that is right to one unit in the last place", "why_tests_cant": "errors of all additions accumulate over contours of any length", "anchors": ["trackeddy/geometry.py: arc_length"]}
{"id": "C147", "title": "Accuracy of the similarity in double arithmetic", "statement": "For contours of ordinary size the similarity is a number that equals max(1 - d sqrt(2) / sqrt(L1 L2), 0) to four decimals, where d is the discrete Frechet distance of the (thinned) contours and L1 and L2 their lengths.", "quantifier": "all pairs of contours with at most 2^20 segments, coordinates up to 2^510 and lengths between 2^-400 and 2^400, within the recursion limit", "why_tests_cant": "all pairs of contours, and rounding in every operation", "anchors": ["trackeddy/geometry.py: compute_similarity, frdist, arc_length"]}
{"id": "C148", "title": "Eddies of separate regions do not influence each other's tracks", "statement": "If no eddy on one side of a border has an earlier position from the other side within its radius, and the eddies of a region are never equally near to two tracks, then leaving all eddies outside the region out of the snapshots does not change which eddies of the region share a track.", "quantifier": "all histories of snapshots with eddies in every step of the region, all regions and all nearest-neighbour answers", "why_tests_cant": "all histories and all arrangements of eddies", "anchors": ["trackeddy/trackeddy.py: TrackEddy.time_tracking", "trackeddy/utils.py: track_online, _detect_nearest, _update_counter, _rename_eddies_in_time"]}
{"id": "C149", "title": "Small noise does not change the contours by more than the noise allows", "statement": "When the noise added to a field is smaller than the distance of the level from every value, and from the mean of the corners of every cell in which the values alone do not decide how the crossings are joined, the contours with and without the noise consist of corresponding lines between the same sides of the grid, and each end of a line moves along its side by at most the fraction eps / (d - 2 eps), where eps bounds the noise and d is the difference of the values at the ends of the side. The closed contours with and without the noise correspond: each goes through exactly the same sides of the grid as its counterpart and encloses the same grid points.", "quantifier": "all meshes, all fields of real numbers, all levels and all noise within the bounds", "why_tests_cant": "all fields and all perturbations of them", "anchors": ["trackeddy/geometry.py: extract_contours", "trackeddy/src/cntr.c"]}
{"id": "C150", "title": "Tracks depend on distances and radii only", "statement": "Two histories that list the same eddies, in which the same earlier positions lie within the radius of each eddy and of any two earlier positions the same one is nearer, get the same identifiers. In particular moving all positions without changing distances, such as counting longitudes from 0 to 360 instead of -180 to 180, changes no identifier, unless an eddy is equally near to two tracks.", "quantifier": "all histories of snapshots with eddies in every step, all distance functions, all nearest-neighbour answers, all changes of the positions that keep the distances", "why_tests_cant": "all histories and all conventions for positions", "anchors": ["trackeddy/trackeddy.py: TrackEddy.time_tracking", "trackeddy/utils.py: track_online, _detect_nearest, _update_counter, _rename_eddies_in_time"]}
{"id": "C151", "title": "Small errors of positions, distances and radii do not change the tracks", "statement": "When the positions, the radii and the distance function are inexact, the eddies get the same identifiers as with exact ones, provided that for every eddy the latest position of each track is inside or outside the radius by more than the errors and the distances of any two tracks differ by more than the errors.", "quantifier": "all histories of snapshots with eddies in every step, all distance functions, all errors within the bounds, all nearest-neighbour answers", "why_tests_cant": "all histories and all errors", "anchors": ["trackeddy/trackeddy.py: TrackEddy.time_tracking", "trackeddy/utils.py: track_online, _detect_nearest, _update_counter, _rename_eddies_in_time"]}
{"id": "C152", "title": "A hill or a Gaussian eddy is found in spite of noise", "statement": "In a field that holds a single Gaussian, circular or aligned with the axes, plus noise smaller than the distance of the level from every value of the Gaussian, every level that some grid point of the Gaussian is beyond and no point of the border is, has exactly one contour; it is closed, and the grid points inside are those at which the Gaussian without the noise is beyond the level. No condition on the means of the cells is needed. The same holds for one hill or basin of any shape (points on each side of the level connected, the border on one side), if the noise is also smaller than the distance of the level from the means of the cells in which the values alone do not decide.", "quantifier": "all Gaussians that are circular or aligned with the axes (either sign, any centre and widths) and all fields with one hill, grids with monotone axes, levels, and all noise within the bound", "why_tests_cant": "all parameters, grids and realisations of the noise; a test has a few", "anchors": ["trackeddy/geometry.py: extract_contours, gaussian", "trackeddy/src/cntr.c: Cntr_trace"]}
{"id": "C153", "title": "Every hill has a contour of its own", "statement": "In a field whose border lies below the level, and whose points below the level are connected with each other, contour extraction returns exactly one contour for each hill (a largest set of points above the level that are connected with each other): it is closed, and the grid points inside it are exactly those of this hill. There are no other contours, and their number is the number of hills. The same holds for basins with above and below exchanged, and it still holds, for the hills of the field without noise, when noise is added that is smaller than the distance of the level from every value and from the mean of every ambiguous cell. In a run of the tracker over fields that have at most n hills at every level, no step has more than n eddies per level.", "quantifier": "all fields of real numbers on grids with monotone axes, with any number of hills of any shape, all levels that no value equals, and all noise within the bound; for the last part all configurations, data and level lists of a run", "why_tests_cant": "all fields with any number of hills; a test has a few eddies", "anchors": ["trackeddy/geometry.py: extract_contours", "trackeddy/src/cntr.c: Cntr_trace", "trackeddy/trackeddy.py: time_tracking"]}
