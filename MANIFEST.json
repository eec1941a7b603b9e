{
 "claims": [
  {
   "property": "C01",
   "status": "proved",
   "theorems": [
    "C01_signum_values",
    "C01_signum_vector"
   ],
   "note": "All f32 values and vectors."
  },
  {
   "property": "C02",
   "status": "proved",
   "theorems": [
    "C02_probability_of_logodds",
    "C02_logodds_of_probability",
    "C02_probability_in_range",
    "C02_logodds_increasing",
    "C02_probability_increasing"
   ],
   "note": "Exact real arithmetic with the standard library ln and exp."
  },
  {
   "property": "C03",
   "status": "proved",
   "theorems": [
    "C03_logodds_special_values",
    "C03_logodds_monotone"
   ],
   "note": "For every logarithm with the stated special values; monotonicity added."
  },
  {
   "property": "C04",
   "status": "proved",
   "theorems": [
    "C04_bayes"
   ],
   "note": "Exact real arithmetic."
  },
  {
   "property": "C05",
   "status": "proved",
   "theorems": [
    "C05_round_trip",
    "C05_round_trip_per_axis",
    "C05_out_of_range_refuted"
   ],
   "note": "Any dimension, scalar and per-axis resolution; failure beyond the range shown by witness."
  },
  {
   "property": "C06",
   "status": "proved",
   "theorems": [
    "C06_nearest_cell",
    "C06_nearest_cell_point",
    "C06_centre"
   ],
   "note": "General error bound and the half-cell-plus-1/1000 form within 4096 cells."
  },
  {
   "property": "C07",
   "status": "proved",
   "theorems": [
    "C07_monotone"
   ],
   "note": "All f32 values including infinities and NaN offsets."
  },
  {
   "property": "C08",
   "status": "partial",
   "theorems": [
    "C08_boundary_refuted",
    "C08_boundary",
    "C08_grid",
    "C08_above_refuted",
    "C08_either"
   ],
   "note": "False as stated: the documented rule fails below zero (C08_boundary_refuted, witness -0.5); C08_boundary and C08_grid state what happens instead when the subtraction is exact; C08_above_refuted has a boundary above zero that goes to the lower cell because the subtraction rounds; C08_either says it is always one of the two cells."
  },
  {
   "property": "C09",
   "status": "proved",
   "theorems": [
    "C09_total",
    "C09_coordinates"
   ],
   "note": "All f32 inputs."
  },
  {
   "property": "C10",
   "status": "proved",
   "theorems": [
    "C10_bounds_new",
    "C10_bounds_new_panics",
    "C10_bounds_new_nan",
    "C10_cell_bounds_new",
    "C10_cell_bounds_new_panics"
   ],
   "note": "Any dimension; both constructors, exactly when they succeed and panic."
  },
  {
   "property": "C11",
   "status": "proved",
   "theorems": [
    "C11_discretized",
    "C11_discretized_returns",
    "C11_discretized_least",
    "C11_discretized_idempotent",
    "C11_tile_size_zero",
    "C11_huge_tiles_refuted"
   ],
   "note": "Exact characterisation of the result, returns away from the ends of isize, least, idempotent, zero tile size. Tile sizes beyond isize: by witness (C11_huge_tiles_refuted, part of the statement)."
  },
  {
   "property": "C12",
   "status": "proved",
   "theorems": [
    "C12_discretized",
    "C12_aligned"
   ],
   "note": "All ordered f32 boxes including infinite corners; every positive finite resolution. Alignment (C12_aligned) for resolutions of res_ok and corners within 2^18 cells of zero."
  },
  {
   "property": "C13",
   "status": "proved",
   "theorems": [
    "C13_enclosing",
    "C13_enclosing_of_empty",
    "C13_enclosing_symmetric_refuted"
   ],
   "note": "Least upper bound for every first box other than the zero box; asymmetry shown by witness."
  },
  {
   "property": "C14",
   "status": "proved",
   "theorems": [
    "C14_overlapping",
    "C14_clear_overlap",
    "C14_always_contained_refuted"
   ],
   "note": "Exact case split on the tolerance of relative_eq, plus a corollary with the tolerance in reals; unconditional containment refuted by witness."
  },
  {
   "property": "C15",
   "status": "proved",
   "theorems": [
    "C15_round_trip",
    "C15_span",
    "C15_from_size",
    "C15_from_size_per_axis"
   ],
   "note": "Any dimension."
  },
  {
   "property": "C16",
   "status": "proved",
   "theorems": [
    "C16_point_from_cell_n",
    "C16_cell_from_point_n",
    "C16_from_cell_bounds_n",
    "C16_from_size_cells_n"
   ],
   "note": "All four pairs of functions."
  },
  {
   "property": "C17",
   "status": "proved",
   "theorems": [
    "C17_points_kept"
   ],
   "note": "Any dimension and length."
  },
  {
   "property": "C18",
   "status": "proved",
   "theorems": [
    "C18_bounds"
   ],
   "note": "Any dimension, NaN and infinite coordinates included."
  },
  {
   "property": "C19",
   "status": "proved",
   "theorems": [
    "C19_transform_points",
    "C19_identity",
    "C19_rigid_distance",
    "C19_rigid_inverse"
   ],
   "note": "Storage and identity in f32; distance preservation and inverse in exact arithmetic for every orthonormal matrix."
  },
  {
   "property": "C20",
   "status": "proved",
   "theorems": [
    "C20_set_then_get",
    "C20_last_write",
    "C20_new_storage"
   ],
   "note": "Every map with matching storage (every map made by new), any sequence of sets."
  },
  {
   "property": "C21",
   "status": "proved",
   "theorems": [
    "C21_get",
    "C21_set",
    "C21_negative"
   ],
   "note": "Every cell with isize coordinates."
  },
  {
   "property": "C22",
   "status": "proved",
   "theorems": [
    "C22_new_uniform",
    "C22_new_iff",
    "C22_new_aligned",
    "C22_default",
    "C22_from_array"
   ],
   "note": "Every call that returns; aligned boxes of up to 3 axes within 2^19 cells."
  },
  {
   "property": "C23",
   "status": "proved",
   "theorems": [
    "C23_values_kept",
    "C23_cells_unique"
   ],
   "note": "Every map reachable by new (empty, over a tile-aligned box, or over any box once it has grown), expand, set and tracking operations; tile size up to 2^17, requests within 2^18 cells."
  },
  {
   "property": "C24",
   "status": "proved",
   "theorems": [
    "C24_expand",
    "C24_cells",
    "C24_reachable",
    "C24_history"
   ],
   "note": "Same range as C23; contents given by an abstract history of writes. Bounds never shrink except from the box at the origin, which has no cells."
  },
  {
   "property": "C25",
   "status": "partial",
   "theorems": [
    "C25_room_refuted",
    "C25_room_partial",
    "C25_nearest_partial",
    "C25_which_points_partial"
   ],
   "note": "False as stated: refuted by witness. Proved: the index is at most one past the end, and in range when on every axis the point is a cell below the upper bound or in the lower quarter of a cell. C25_nearest and C25_which_points say for every map which points can be read and which make the program panic, up to a fifth of a cell."
  },
  {
   "property": "C26",
   "status": "proved",
   "theorems": [
    "C26_covered",
    "C26_repeated",
    "C26_well_inside"
   ],
   "note": "Same range as C23."
  },
  {
   "property": "C27",
   "status": "partial",
   "theorems": [
    "C27_arbitrary_bounds_refuted",
    "C27_aligned_bounds_partial",
    "C27_condition_partial",
    "C27_can_be_built",
    "C27_fits_partial",
    "C27_panics_partial"
   ],
   "note": "False as stated: refuted by a map over an unaligned box. Proved: it holds for tile-aligned boxes, and the exact condition under which it holds for any box (within 2^18 cells of the origin); otherwise the program panics. C27_fits and C27_panics give the condition by the positions of the corners within their cells."
  },
  {
   "property": "C28",
   "status": "proved",
   "theorems": [
    "C28_round_trip",
    "C28_same_place"
   ],
   "note": "Same range as C23; centres within 3/20 of a cell."
  },
  {
   "property": "C29",
   "status": "proved",
   "theorems": [
    "C29_connected",
    "C29_toward_end"
   ],
   "note": "Every f32 input, 2D and 3D; direction signs shown to point to the end."
  },
  {
   "property": "C30",
   "status": "proved",
   "theorems": [
    "C30_same_cell"
   ],
   "note": "Every f32 input."
  },
  {
   "property": "C31",
   "status": "proved",
   "theorems": [
    "C31_completed"
   ],
   "note": "Every f32 input for which an end cell is returned."
  },
  {
   "property": "C32",
   "status": "proved",
   "theorems": [
    "C32_limited",
    "C32_prefix",
    "C32_unlimited",
    "C32_fuel_irrelevant"
   ],
   "note": "Every f32 input, including NaN limits."
  },
  {
   "property": "C33",
   "status": "partial",
   "theorems": [
    "C33_cast_ray_returns_refuted",
    "C33_limited_ray_returns_refuted",
    "C33_returns_partial",
    "C33_decided_partial",
    "C33_condition_partial"
   ],
   "note": "False as stated: two witnesses on which cast_ray does not return for any number of steps, one unlimited (ray passes its end cell) and one with a positive limit (squared length overflows). Proved for rays in range whose end is a sixteenth of a cell away from every border (C33_returns_partial); C33_decided_partial says of every ray without limit that it arrives after as many steps as its cells are apart or never returns; C33_condition_partial says which, in terms of the order of the crossed borders (C79); C80_ray does so for every limit; C34, C35 and C38 are further cases."
  },
  {
   "property": "C34",
   "status": "proved",
   "theorems": [
    "C34_ideal_ray"
   ],
   "note": "Exact real arithmetic; requires only that the segment does not end on the border through which it would leave its last cell."
  },
  {
   "property": "C35",
   "status": "proved",
   "theorems": [
    "C35_axis_aligned"
   ],
   "note": "f32 arithmetic in the range of ray_range: resolution 2^-30 to 2^30, coordinates within 2^20 cells."
  },
  {
   "property": "C36",
   "status": "proved",
   "theorems": [
    "C36_free_and_occupied",
    "C36_returns",
    "C36_fails"
   ],
   "note": "Every cloud; failures are those of a single ray."
  },
  {
   "property": "C37",
   "status": "proved",
   "theorems": [
    "C37_order_irrelevant"
   ],
   "note": "Any two clouds with the same set of points."
  },
  {
   "property": "C38",
   "status": "proved",
   "theorems": [
    "C38_limit_bounds_work"
   ],
   "note": "f32 arithmetic in the range of ray_range, limit up to 2^20 cells; step bound d*(max_len/resolution+10)."
  },
  {
   "property": "C39",
   "status": "proved",
   "theorems": [
    "C39_new",
    "C39_default"
   ],
   "note": "Every f32 argument and every logarithm function."
  },
  {
   "property": "C40",
   "status": "proved",
   "theorems": [
    "C40_values_limited",
    "C40_default_signs",
    "C40_signs_needed"
   ],
   "note": "Every history of integrations from a new map with any arguments; a witness shows the sign condition on hits is needed."
  },
  {
   "property": "C41",
   "status": "proved",
   "theorems": [
    "C41_update",
    "C41_places",
    "C41_history"
   ],
   "note": "One call for every map with matching storage; places in the world and whole histories for reachable maps, tile size up to 2^17, clouds within 2^18 cells."
  },
  {
   "property": "C42",
   "status": "proved",
   "theorems": [
    "C42_order"
   ],
   "note": "Every pair of iteration orders of both hash sets."
  },
  {
   "property": "C43",
   "status": "proved",
   "theorems": [
    "C43_hit",
    "C43_miss",
    "C43_history"
   ],
   "note": "Every f32 value; every history."
  },
  {
   "property": "C44",
   "status": "proved",
   "theorems": [
    "C44_hits",
    "C44_misses",
    "C44_occupied"
   ],
   "note": "Any number of updates."
  },
  {
   "property": "C45",
   "status": "proved",
   "theorems": [
    "C45_tracking",
    "C45_switches"
   ],
   "note": "Every map with matching storage."
  },
  {
   "property": "C46",
   "status": "partial",
   "theorems": [
    "C46_index_refuted",
    "C46_index_partial",
    "C46_exactly_partial",
    "C46_points_partial"
   ],
   "note": "False as stated: refuted by a history in which the map grows towards negative coordinates. Proved for clouds that do not reach below the lower corner of the map; C46_exactly says exactly when a reported number keeps its meaning."
  },
  {
   "property": "C47",
   "status": "partial",
   "theorems": [
    "C47_no_panic_refuted",
    "C47_sensor_outside_refuted",
    "C47_missed_end_refuted",
    "C47_no_panic_partial",
    "C47_in_range_partial",
    "C47_request"
   ],
   "note": "False as stated: refuted by a point near the upper border, by a sensor outside the points' box, and by a beam that ends on a cell border, misses its end cell and leaves the map. Proved when the sensor is in the expanded map, the points are clear of the border and the unlimited rays reach their ends; C47_in_range_partial replaces the last condition by conditions on the coordinates (rays of at most 1023 cells per axis, ends an eighth of a cell away from cell borders). C80 says exactly which scans of timely rays are taken in."
  },
  {
   "property": "C48",
   "status": "proved",
   "theorems": [
    "C48_words",
    "C48_cloud",
    "C48_numbers",
    "C48_bits"
   ],
   "note": "Every byte string and both byte orders; NaN payloads are not represented in the decoded points (the words themselves are covered by C48_words)."
  },
  {
   "property": "C49",
   "status": "proved",
   "theorems": [
    "C49_round_trip"
   ],
   "note": "Every list of points and intensity words."
  },
  {
   "property": "C50",
   "status": "proved",
   "theorems": [
    "C50_utf8",
    "C50_fields",
    "C50_accepts",
    "C50_errors",
    "C50_later_fields"
   ],
   "note": "Every byte string and every float parser; UTF-8 validity characterised by the encodings of Unicode scalar values."
  },
  {
   "property": "C51",
   "status": "proved",
   "theorems": [
    "C51_record",
    "C51_directory"
   ],
   "note": "Every readable directory."
  },
  {
   "property": "C52",
   "status": "partial",
   "theorems": [
    "C52_origin",
    "C52_north",
    "C52_up",
    "C52_east_refuted",
    "C52_east_computed",
    "C52_east_partial"
   ],
   "note": "The east component is wrong: refuted by witness for every cosine that is right at zero. Origin, north and up proved; east proved only for origins on the equator."
  },
  {
   "property": "C53",
   "status": "proved",
   "theorems": [
    "C53_listing",
    "C53_any_order"
   ],
   "note": "Every directory."
  },
  {
   "property": "C54",
   "status": "proved",
   "theorems": [
    "C54_equal_length",
    "C54_names",
    "C54_other_length"
   ],
   "note": "Every number of digits and extension; witness for unequal lengths."
  },
  {
   "property": "C55",
   "status": "proved",
   "theorems": [
    "C55_clouds",
    "C55_poses"
   ],
   "note": "Every directory, with the list of opened files."
  },
  {
   "property": "C56",
   "status": "partial",
   "theorems": [
    "C56_clouds_refuted",
    "C56_poses_refuted",
    "C56_clouds_partial",
    "C56_poses_partial",
    "C56_clouds_exactly_partial",
    "C56_poses_exactly_partial"
   ],
   "note": "False as stated: a file name that is not UTF-8 panics when printed. Proved when all names are text; the exact theorems say that only the names of the files opened matter, and what happens at the first that is not text."
  },
  {
   "property": "C57",
   "status": "proved",
   "theorems": [
    "C57_no_deadlock",
    "C57_frames_keep_coming"
   ],
   "note": "Every interleaving of the render thread and any number of workers: the render thread can move, or one enabled worker step away from moving; at most ten of its steps between frames; a worker can always move unless its integration does not return."
  },
  {
   "property": "C58",
   "status": "proved",
   "theorems": [
    "C58_one_worker_every_report"
   ],
   "note": "At most one live worker in every reachable state; every trace follows the order consume - start - integrate - report, with the consumed cells equal to the reported ones."
  },
  {
   "property": "C59",
   "status": "proved",
   "theorems": [
    "C59_display",
    "C59_display_in_program",
    "C59_without_proviso_refuted"
   ],
   "note": "For recordings whose clouds lie within 2^18 cells and a map whose lower corner does not move once it has cells (the proviso of the property); a separate theorem gives a run violating the claim when the corner moves."
  },
  {
   "property": "C60",
   "status": "proved",
   "theorems": [
    "C60_frozen_not_crashed"
   ],
   "note": "After a worker panic every later event is a frame showing the same cells, and the render thread can always move and never panics."
  },
  {
   "property": "C61",
   "status": "proved",
   "theorems": [
    "C61_cyclic",
    "C61_no_frames",
    "C61_paired",
    "C61_lengths_checked"
   ],
   "note": "The k-th started worker gets pose and cloud k mod N; without clouds nothing is drawn or started and the render thread runs into its panic; main's pairing of poses and clouds."
  },
  {
   "property": "C62",
   "status": "proved",
   "theorems": [
    "C62_f32_ray"
   ],
   "note": "f32 arithmetic, coordinates up to 2^15 cells, rays up to 1023 cells per axis, end at least a sixteenth of a cell away from every border on the axes on which the ray moves."
  },
  {
   "property": "C63",
   "status": "proved",
   "theorems": [
    "C63_limited_f32_ray"
   ],
   "note": "Range of C62, limit up to 2^20 cells. The cells of the segment up to one cell short of the limit are visited; no visited cell other than the first has its centre more than a thirty-second of a cell beyond the limit."
  },
  {
   "property": "C64",
   "status": "proved",
   "theorems": [
    "C64_scan"
   ],
   "note": "f32 arithmetic, scans in the range of C47_in_range_partial (rays up to 1023 cells per axis, coordinates up to 2^15 cells, ends an eighth of a cell away from borders), limit none or up to 2^20 cells. Cells within an eighth of a cell of a beam or an end are not decided."
  },
  {
   "property": "C65",
   "status": "proved",
   "theorems": [
    "C65_values",
    "C65_continues"
   ],
   "note": "Every sequence of scans in the range of C64; cells that a scan leaves undecided (within an eighth of a cell of a beam or an end) are outside of the statement."
  },
  {
   "property": "C66",
   "status": "proved",
   "theorems": [
    "C66_static",
    "C66_default"
   ],
   "note": "Range of C65, noise models with the expected signs; the default model is one of them (C66_default) for every logarithm that is monotone, positive above one and has the special values."
  },
  {
   "property": "C67",
   "status": "proved",
   "theorems": [
    "C67_transform_error",
    "C67_distances"
   ],
   "note": "Every 3D cloud and matrix with entries up to 2^40; the distance bound for matrices orthonormal up to 2^-10."
  },
  {
   "property": "C68",
   "status": "proved",
   "theorems": [
    "C68_relative_sym",
    "C68_abs_diff_sym",
    "C68_relative_refl",
    "C68_abs_diff_refl",
    "C68_eq_relative",
    "C68_default_tolerance",
    "C68_exact",
    "C68_not_transitive",
    "C68_special"
   ],
   "note": "Any dimension, all f32 values, all tolerances; the two-sided tolerance for finite boxes and the default epsilon."
  },
  {
   "property": "C69",
   "status": "proved",
   "theorems": [
    "C69_never_panics",
    "C69_map",
    "C69_live",
    "C69_settles",
    "C69_displayed",
    "C69_in_program",
    "C69_fair_exists"
   ],
   "note": "Recordings in the stated range; fairness is weak fairness of each thread (a thread that can always move from some time on does move). The display part needs that no later cloud reaches below the first on any axis (first_lowest); C59_without_proviso_refuted shows why. C69_in_program instantiates the parameters of main."
  },
  {
   "property": "C70",
   "status": "proved",
   "theorems": [
    "C70_exact",
    "C70_matrix",
    "C70_distances"
   ],
   "note": "Sine and cosine are arbitrary functions accurate to 2^-24 (the platform functions are better); angles up to 8 in absolute value, coordinates up to 2^40."
  },
  {
   "property": "C71",
   "status": "proved",
   "theorems": [
    "C71_opens",
    "C71_ends",
    "C71_panics",
    "C71_drive_unique",
    "C71_started",
    "C71_placed"
   ],
   "note": "main up to the opening of the window, then the transition system of C57-C61. The file system is an argument (existence, kind, listing and contents of each file, any of which may fail); float parsers and cosine are arbitrary. C71_placed in the range of C70."
  },
  {
   "property": "C72",
   "status": "proved",
   "theorems": [
    "C72_aligned",
    "C72_same_as_expand",
    "C72_any_distance_refuted",
    "C72_any_box_refuted",
    "C72_any_resolution_refuted"
   ],
   "note": "Range as stated; the three refutations are part of the statement."
  },
  {
   "property": "C73",
   "status": "proved",
   "theorems": [
    "C73_never_panics",
    "C73_displayed"
   ],
   "note": "The position of the vehicle is the one the code computes from the GPS data (C52 relates it to the GPS data). Margins as in scene_clear: they exclude points closer than 3/16 of a cell to a cell border or closer than 1/8 of a cell to the sensor on some axis."
  },
  {
   "property": "C74",
   "status": "partial",
   "theorems": [
    "C74_keeps_values_refuted",
    "C74_between_corners_partial",
    "C74_kept_partial",
    "C74_lost_partial"
   ],
   "note": "False as stated: refuted by a map that silently loses its last row and column. Proved: all cells between the cells of the two corners keep their value and new cells get the default; C74_kept and C74_lost say by the positions of the corners within their cells when everything is kept and when the last row is lost."
  },
  {
   "property": "C75",
   "status": "proved",
   "theorems": [
    "C75_forgets",
    "C75_default",
    "C75_default_needs"
   ],
   "note": "Every model with moderate numbers whose evidence is at least 1/4096 of the limits; the default model with any logarithm accurate to 2^-22; any history of scans in range (as in C65)."
  },
  {
   "property": "C76",
   "status": "proved",
   "theorems": [
    "C76_logodds",
    "C76_probability",
    "C76_roundtrip"
   ],
   "note": "f32 arithmetic as it is, ln and exp as functions with relative error at most 2^-22."
  },
  {
   "property": "C77",
   "status": "proved",
   "theorems": [
    "C77_settles",
    "C77_program",
    "C77_display",
    "C77_in_program",
    "C77_constant_refuted"
   ],
   "note": "Scans in range (as in C65), finite evidence; the running program under every schedule. That the map becomes constant, not merely periodic, is refuted."
  },
  {
   "property": "C78",
   "status": "proved",
   "theorems": [
    "C78_sum",
    "C78_any_order",
    "C78_default",
    "C78_beyond_limits_refuted"
   ],
   "note": "Every model with moderate numbers; the default model with any logarithm accurate to 2^-22; scans in range (as in C65). That the order matters beyond the limits is proved by a witness."
  },
  {
   "property": "C79",
   "status": "proved",
   "theorems": [
    "C79_cells",
    "C79_limited",
    "C79_in_range"
   ],
   "note": "Every ray whose first crossings are above minus infinity and whose spacings are not negative; C79_in_range shows that all rays in range are."
  },
  {
   "property": "C80",
   "status": "proved",
   "theorems": [
    "C80_ray",
    "C80_result",
    "C80_rays",
    "C80_scan",
    "C80_in_range"
   ],
   "note": "Rays that are timely: those that leave their cell have first crossings above minus infinity, one of them finite, and spacings that are not negative; C80_in_range shows that all rays in range are."
  },
  {
   "property": "C81",
   "status": "proved",
   "theorems": [
    "C81_ray",
    "C81_one_stop",
    "C81_scan"
   ],
   "note": "Rays that are timely, as in C80; C80_in_range shows that all rays in range are, and C80_scan says which scans are taken in."
  },
  {
   "property": "C82",
   "status": "proved",
   "theorems": [
    "C82_cell",
    "C82_ray",
    "C82_scan",
    "C82_any_ray_refuted"
   ],
   "note": "C82_any_ray_refuted shows that the condition on the direction is needed: a ray so short that the square of its length is zero goes down the second axis."
  },
  {
   "property": "C83",
   "status": "proved",
   "theorems": [
    "C83_exact",
    "C83_marker",
    "C83_picture",
    "C83_next",
    "C83_current_refuted"
   ],
   "note": "C83_current_refuted: the marker is not at the pose of the scan last given to a worker, but one ahead."
  },
  {
   "property": "C84",
   "status": "proved",
   "theorems": [
    "C84_cell",
    "C84_ray",
    "C84_scan",
    "C84_new",
    "C84_map",
    "C84_occupied",
    "C84_any_size_refuted",
    "C84_any_factor_refuted"
   ],
   "note": "C84_any_size_refuted, C84_any_factor_refuted: the ranges of sizes and the power of two are needed."
  },
  {
   "property": "C85",
   "status": "proved",
   "theorems": [
    "C85_extent",
    "C85_same_hull",
    "C85_size",
    "C85_scans",
    "C85_program_size",
    "C85_program_settles"
   ],
   "note": "The bound is sharp up to half a cell (example)."
  },
  {
   "property": "C86",
   "status": "proved",
   "theorems": [
    "C86_ray",
    "C86_scan",
    "C86_new",
    "C86_expand",
    "C86_map",
    "C86_occupied",
    "C86_ties_refuted",
    "C86_third_axis_refuted"
   ],
   "note": "Rays with ties between the first two axes are excluded (C86_ties_refuted shows that they must be); the third axis is not alike (C86_third_axis_refuted)."
  },
  {
   "property": "C87",
   "status": "proved",
   "theorems": [
    "C87_reads",
    "C87_unambiguous",
    "C87_accepts",
    "C87_infinite",
    "C87_nan",
    "C87_characters",
    "C87_closest",
    "C87_monotone",
    "C87_read_back",
    "C87_records",
    "C87_record",
    "C87_positions",
    "C87_line_break",
    "C87_nan_origin"
   ],
   "note": "How the standard library finds the nearest number is not modelled; the model takes the documented result and the grammar of Rust 1.55 and later. Number.v is a model of a library the crate calls, the other KITTI theorems hold for every parser."
  },
  {
   "property": "C88",
   "status": "proved",
   "theorems": [
    "C88_exact",
    "C88_ray",
    "C88_scan",
    "C88_map",
    "C88_grown",
    "C88_beforehand",
    "C88_tenth_refuted"
   ],
   "note": "Exact arithmetic for all resolutions; f32 for coordinates that are multiples of a power of two. The failure with cells of 0.1 is part of the statement and shown by witness (C88_tenth_refuted)."
  },
  {
   "property": "C89",
   "status": "proved",
   "theorems": [
    "C89_exact",
    "C89_ray",
    "C89_map",
    "C89_step",
    "C89_points",
    "C89_size_refuted",
    "C89_taken_refuted"
   ],
   "note": "Exact arithmetic for all; f32 for coordinates that are multiples of a power of two. That sizes differ and that a moved scan may be refused are part of the statement and shown by witness (C89_size_refuted, C89_taken_refuted)."
  },
  {
   "property": "C90",
   "status": "proved",
   "theorems": [
    "C90_exact",
    "C90_corner_refuted",
    "C90_f32_refuted",
    "C90_f32"
   ],
   "note": "Exact arithmetic, and f32 away from corners. That corners make a difference and that rounding may make one near them are part of the statement and shown by witness in f32 (C90_corner_refuted, C90_f32_refuted)."
  },
  {
   "property": "C91",
   "status": "proved",
   "theorems": [
    "C91_scenes",
    "C91_opens",
    "C91_never_panics",
    "C91_displayed"
   ],
   "note": "The parsers are those of Number.v (C87); sine, cosine and logarithm are arbitrary accurate or monotone functions. East is what the code computes (C52)."
  },
  {
   "property": "C92",
   "status": "proved",
   "theorems": [
    "C92_same_ray",
    "C92_limited",
    "C92_scan",
    "C92_near_refuted"
   ],
   "note": "That the rays may differ near corners is part of the statement (C92_near_refuted)."
  },
  {
   "property": "C93",
   "status": "proved",
   "theorems": [
    "C93_rays",
    "C93_taken",
    "C93_values",
    "C93_copies"
   ],
   "note": "For reachable maps that are large enough for all points: tile size up to 2^17, clouds within 2^18 cells."
  },
  {
   "property": "C94",
   "status": "proved",
   "theorems": [
    "C94_ray",
    "C94_limited",
    "C94_scan",
    "C94_map"
   ],
   "note": "In f32 without tolerance, for beams clear of corners, borders and the limit by fixed fractions of a cell."
  },
  {
   "property": "C95",
   "status": "proved",
   "theorems": [
    "C95_ray",
    "C95_limited",
    "C95_map",
    "C95_moved"
   ],
   "note": "From the exact points to the map without tolerance, for beams clear of corners, borders and the limit by an eighth of a cell."
  },
  {
   "property": "C96",
   "status": "proved",
   "theorems": [
    "C96_values",
    "C96_same",
    "C96_taken",
    "C96_ends"
   ],
   "note": "From exact scans in a world frame to the value of every cell, without tolerance, for beams clear of corners, borders and the limit by an eighth of a cell."
  },
  {
   "property": "C97",
   "status": "proved",
   "theorems": [
    "C97_values",
    "C97_occupied",
    "C97_order",
    "C97_changed",
    "C97_default"
   ],
   "note": "For scans as in C96 of any world of walls: exact values, occupied exactly if hit, and a bounded number of scans after a change."
  },
  {
   "property": "C98",
   "status": "proved",
   "theorems": [
    "C98_state",
    "C98_displayed",
    "C98_in_program",
    "C98_files"
   ],
   "note": "For recordings in range of any world of walls: occupied exactly if hit at any time, displayed exactly if hit from some time on, also from the files."
  },
  {
   "property": "C99",
   "status": "proved",
   "theorems": [
    "C99_values",
    "C99_same",
    "C99_taken",
    "C99_ends",
    "C99_occupied",
    "C99_order",
    "C99_changed",
    "C99_limit"
   ],
   "note": "For scans as in C96 and any limit that is not positive: values, sameness, the next scan, occupied cells, changes, and equality with a limit that no beam reaches."
  },
  {
   "property": "C100",
   "status": "proved",
   "theorems": [
    "C100_mapped",
    "C100_walls",
    "C100_unlimited",
    "C100_unlimited_walls",
    "C100_stored",
    "C100_rounding_refuted",
    "C100_default",
    "C100_order",
    "C100_changed"
   ],
   "note": "For drives given by real numbers in the stated range, stored as the nearest f32s: no panic, the values, the occupied cells, the default numbers, sensors without a limit, drives in another order, changes of the world, and that storing is possible."
  }
 ]
}