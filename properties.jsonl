{"id": "C01", "title": "Sign of a float", "statement": "math::f32_signum returns exactly 0.0 for both zeros, 1.0 for every value greater than zero (including +infinity) and -1.0 for every other value; in particular NaN yields -1.0, so the result is always one of -1, 0, 1. signum of a vector is the coordinatewise sign.", "quantifier": "every f32 value, every vector", "why_tests_cant": "The f32 space (2^32 values per argument, with NaN, infinities, signed zeros and subnormals) cannot be enumerated by examples.", "anchors": ["src/math.rs f32_signum", "src/geom/vector.rs signum"]}
{"id": "C02", "title": "Log-odds and probability are inverse", "statement": "In exact arithmetic probability_from_logodds(logodds_from_probability(p)) = p for every p strictly between 0 and 1, logodds_from_probability(probability_from_logodds(l)) = l for every l, both maps are strictly increasing and every probability produced lies strictly between 0 and 1.", "quantifier": "every real probability and log-odds value", "why_tests_cant": "A continuum of values; a test checks a handful with a tolerance.", "anchors": ["src/math.rs logodds_from_probability", "src/math.rs probability_from_logodds"]}
{"id": "C03", "title": "Log-odds at and beyond the ends of the probability range", "statement": "In f32 arithmetic, whatever the libm logarithm does on ordinary arguments, logodds_from_probability maps 0 to -infinity, 1 to +infinity, one half to zero, and NaN or any value outside [0,1] to NaN.", "quantifier": "every f32 value, every logarithm that is right at 0, 1, +infinity and on negative/NaN arguments", "why_tests_cant": "The f32 space (2^32 values per argument, with NaN, infinities, signed zeros and subnormals) cannot be enumerated by examples.", "anchors": ["src/math.rs logodds_from_probability"]}
{"id": "C04", "title": "Adding log-odds is Bayes' rule", "statement": "In exact arithmetic, adding the log-odds of an observation with probability q to the log-odds of a prior p gives the log-odds of the Bayesian posterior pq/(pq+(1-p)(1-q)).", "quantifier": "all p, q strictly between 0 and 1", "why_tests_cant": "A continuum of values.", "anchors": ["src/math.rs", "src/map/lidar_noise_model.rs integrate_hit, integrate_miss"]}
{"id": "C05", "title": "Cell to point to cell round-trip", "statement": "cell_from_point(point_from_cell(c, o, r), o, r) = c in f32 arithmetic for every cell and offset up to 2^20 cells away from zero and every resolution between 2^-100 and 2^100; there are cells beyond 2^24 where the round trip fails.", "quantifier": "every resolution, offset and cell in the stated range, any dimension", "why_tests_cant": "The f32 space (2^32 values per argument, with NaN, infinities, signed zeros and subnormals) cannot be enumerated by examples.", "anchors": ["src/geom/converter.rs point_from_cell, cell_from_point"]}
{"id": "C06", "title": "cell_from_point returns a nearest cell", "statement": "The centre of the cell returned for a point is within half a cell (plus a rounding allowance, at most 1/1000 cell within 2^11 cells of the offset) of the point in every coordinate.", "quantifier": "every f32 point, offset and resolution in the stated range", "why_tests_cant": "The f32 space (2^32 values per argument, with NaN, infinities, signed zeros and subnormals) cannot be enumerated by examples.", "anchors": ["src/geom/converter.rs cell_coord_from_point_coord"]}
{"id": "C07", "title": "cell_from_point is monotone", "statement": "If one coordinate is <= another, its cell index is <= the other's, for the same offset and positive resolution; including infinities and saturated indices.", "quantifier": "all f32 coordinates, offsets and positive resolutions", "why_tests_cant": "The f32 space (2^32 values per argument, with NaN, infinities, signed zeros and subnormals) cannot be enumerated by examples.", "anchors": ["src/geom/converter.rs cell_coord_from_point_coord"]}
{"id": "C08", "title": "Points on a cell boundary go to the higher cell", "statement": "As documented on cell_from_point: a point lying exactly on a boundary between two cells is assigned to the higher one.", "quantifier": "every point exactly on a boundary", "why_tests_cant": "Only holds or fails for particular signs; examples with positive coordinates pass.", "anchors": ["src/geom/converter.rs cell_from_point doc comment", "src/map/grid_map.rs GridMap::cell_from_point doc comment"]}
{"id": "C09", "title": "cell_from_point is total", "statement": "cell_from_point never panics and always yields an index representable as isize: NaN quotients give index 0, out-of-range quotients saturate.", "quantifier": "every f32 input", "why_tests_cant": "The f32 space (2^32 values per argument, with NaN, infinities, signed zeros and subnormals) cannot be enumerated by examples.", "anchors": ["src/geom/converter.rs cell_coord_from_point_coord"]}
{"id": "C10", "title": "Bounds constructors accept exactly ordered boxes", "statement": "Bounds::new and CellBounds::new succeed exactly when every minimum coordinate is <= the corresponding maximum, return the given corners unchanged, and otherwise panic (a NaN corner always panics).", "quantifier": "all corner points of any dimension", "why_tests_cant": "The f32 space (2^32 values per argument, with NaN, infinities, signed zeros and subnormals) cannot be enumerated by examples.", "anchors": ["src/geom/bounds.rs Bounds::new", "src/geom/cell_bounds.rs CellBounds::new"]}
{"id": "C11", "title": "Cell bounds are rounded out to tiles", "statement": "CellBounds::discretized(t) contains the original box, has all corners on multiples of t, is the smallest such box, and is idempotent; a tile size of zero panics. A tile size beyond isize, which its type usize allows, is taken for a negative one, and the result need not contain the original box.", "quantifier": "every cell box and tile size that fit in isize", "why_tests_cant": "Unbounded integers of both signs and all remainders.", "anchors": ["src/geom/cell_bounds.rs CellBounds::discretized"]}
{"id": "C12", "title": "Bounds are rounded out to the resolution", "statement": "Bounds::discretized never panics on an ordered box, and the result contains the original box exactly (no rounding allowance); the max corner is never more than one resolution (plus rounding) beyond the original. For resolutions and boxes in the usual range (up to 2^18 cells from zero) every corner of the result lies, up to an eighth of a cell, on a multiple of the resolution; with the expand flag the new max corner is beyond the whole cell that contains the old one.", "quantifier": "every ordered f32 box, every positive finite resolution, both expand flags (alignment: resolutions of the usual range, corners within 2^18 cells of zero)", "why_tests_cant": "The f32 space (2^32 values per argument, with NaN, infinities, signed zeros and subnormals) cannot be enumerated by examples.", "anchors": ["src/geom/bounds.rs Bounds::discretized"]}
{"id": "C13", "title": "enclosing is the least box containing both", "statement": "a.enclosing(b) contains a and b and is contained in every box containing both; when a is the empty box the result is b; it is not symmetric (an empty b is not ignored).", "quantifier": "all non-NaN boxes of any dimension", "why_tests_cant": "The f32 space (2^32 values per argument, with NaN, infinities, signed zeros and subnormals) cannot be enumerated by examples.", "anchors": ["src/geom/bounds.rs Bounds::enclosing"]}
{"id": "C14", "title": "overlapping is the intersection", "statement": "a.overlapping(b) is exactly the set intersection unless some side of the intersection is empty or not longer than the approximate-equality tolerance, in which case the empty box at the origin is returned (which need not lie in either box).", "quantifier": "all non-NaN boxes of any dimension", "why_tests_cant": "The f32 space (2^32 values per argument, with NaN, infinities, signed zeros and subnormals) cannot be enumerated by examples.", "anchors": ["src/geom/bounds.rs Bounds::overlapping"]}
{"id": "C15", "title": "Cell bounds survive conversion to metric bounds and back", "statement": "CellBounds::from_bounds(Bounds::from_cell_bounds(cb, r), r) = cb, and the metric box spans exactly the number of cells of cb; a box made by from_size_cells(_n) starts at the offset and spans exactly the given size.", "quantifier": "every cell box within 2^20 cells of zero and resolution in the stated range", "why_tests_cant": "The f32 space (2^32 values per argument, with NaN, infinities, signed zeros and subnormals) cannot be enumerated by examples.", "anchors": ["src/geom/bounds.rs Bounds::from_cell_bounds, from_size_cells", "src/geom/cell_bounds.rs CellBounds::from_bounds"]}
{"id": "C16", "title": "Per-axis resolution agrees with scalar resolution", "statement": "point_from_cell_n, cell_from_point_n, from_cell_bounds_n and from_size_cells_n with the same resolution on each axis give exactly the result of their scalar counterparts.", "quantifier": "every input", "why_tests_cant": "The f32 space (2^32 values per argument, with NaN, infinities, signed zeros and subnormals) cannot be enumerated by examples.", "anchors": ["src/geom/converter.rs point_from_cell_n, cell_from_point_n", "src/geom/bounds.rs from_cell_bounds_n, from_size_cells_n"]}
{"id": "C17", "title": "Point clouds keep their points", "statement": "from_points followed by points_iter gives the same points in the same order, bit for bit, and num_points is their number.", "quantifier": "every list of points of any length", "why_tests_cant": "Unbounded length.", "anchors": ["src/geom/point_cloud.rs from_points, points_iter, num_points"]}
{"id": "C18", "title": "Point cloud bounds", "statement": "PointCloud::bounds contains every non-NaN coordinate of every point and the coordinate origin, and is the least box that contains the origin and all points; in particular it is an ordered box (never makes Bounds::new panic) even with NaN points.", "quantifier": "every point cloud", "why_tests_cant": "The f32 space (2^32 values per argument, with NaN, infinities, signed zeros and subnormals) cannot be enumerated by examples.", "anchors": ["src/geom/point_cloud.rs PointCloud::bounds"]}
{"id": "C19", "title": "Transforming a point cloud", "statement": "transform returns as many points as it was given, the i-th result depends only on the i-th point, the identity matrix leaves finite points unchanged in value, and in exact arithmetic a rigid transform preserves distances and the inverse undoes it.", "quantifier": "every cloud and matrix", "why_tests_cant": "The f32 space (2^32 values per argument, with NaN, infinities, signed zeros and subnormals) cannot be enumerated by examples.", "anchors": ["src/geom/point_cloud.rs PointCloud::transform"]}
{"id": "C20", "title": "Grid map get/set laws", "statement": "After set(c, v) succeeds, get(c) = v, get of every other cell, the bounds, resolution, tile size and change tracking are unchanged, and the set of readable cells is unchanged.", "quantifier": "every map, cell and value; any sequence of sets", "why_tests_cant": "Any array shape and any pair of cells.", "anchors": ["src/map/grid_map.rs GridMapN::get, set"]}
{"id": "C21", "title": "Out-of-range cells are always detected", "statement": "get and set panic exactly on cells outside 0..shape on some axis; a cell with a negative coordinate always panics and never aliases another cell despite the isize-to-usize transmute.", "quantifier": "every cell and shape", "why_tests_cant": "Aliasing could appear for any of 2^64 indices.", "anchors": ["src/geom/cell.rs to_ndindex", "src/map/grid_map.rs GridMapN::get, set"]}
{"id": "C22", "title": "A new grid map is uniformly initialised", "statement": "GridMapN::new over cell-aligned bounds has one cell per resolution step on each axis and every cell reads the default value; GridMapN::new never yields a map whose shape disagrees with its storage. The default map is the new map over the empty box with cells of a tenth and tiles of a hundred cells. A new map is made exactly if no axis has a negative number of cells and the array is not too large for the machine; otherwise new panics. A map made from an array shows its elements in row-major order; no new map tracks changes.", "quantifier": "every aligned box in range, every default value", "why_tests_cant": "The f32 space (2^32 values per argument, with NaN, infinities, signed zeros and subnormals) cannot be enumerated by examples.", "anchors": ["src/map/grid_map.rs GridMapN::new, ndarray_with_bounds"]}
{"id": "C23", "title": "Expanding keeps every stored value in place", "statement": "After expand_bounds every cell that existed before still exists at the same metric location with the same value.", "quantifier": "every reachable map and every ordered bounds in range; any history of operations", "why_tests_cant": "Offsets, tile alignment and rounding combine differently for each history.", "anchors": ["src/map/grid_map.rs expand_bounds (2D and 3D)"]}
{"id": "C24", "title": "Expanding fills new cells with the default and keeps the map well-formed", "statement": "After any history of expand_bounds calls from an empty map, the map's bounds are tile aligned, its shape matches its bounds, cells never set hold the default value of the expansion that created them, resolution and tile size never change and bounds never shrink (except from the box at the origin, which has no cells); expand_bounds does not panic in the stated range.", "quantifier": "every history of operations", "why_tests_cant": "Unbounded histories.", "anchors": ["src/map/grid_map.rs expand_bounds, ndarray_with_bounds"]}
{"id": "C25", "title": "Expanding makes room for the requested bounds", "statement": "As documented on ExpandableGridMap::expand_bounds: afterwards memory is allocated to set the cell of every point within the requested bounds.", "quantifier": "every reachable map and requested bounds", "why_tests_cant": "Fails only for coordinates in the upper half of the last cell before a tile edge.", "anchors": ["src/map/grid_map.rs ExpandableGridMap::expand_bounds doc comment"]}
{"id": "C26", "title": "Expanding to covered bounds changes nothing", "statement": "If the requested bounds, rounded out, already lie inside the map's bounds then expand_bounds leaves the map completely unchanged; repeating an expansion is a no-op.", "quantifier": "every reachable map and requested bounds", "why_tests_cant": "Depends on rounding being stable under repetition.", "anchors": ["src/map/grid_map.rs expand_bounds early return"]}
{"id": "C27", "title": "Maps built with arbitrary bounds can be expanded", "statement": "expand_bounds succeeds on every map obtained from GridMapN::new with ordered bounds.", "quantifier": "every ordered initial bounds", "why_tests_cant": "Fails only when the metric size and the difference of rounded corners disagree.", "anchors": ["src/map/grid_map.rs GridMapN::new, expand_bounds"]}
{"id": "C28", "title": "Map coordinates round-trip", "statement": "On a well-formed map, cell_from_point(point_from_cell(c)) = c for every cell of the map, and point_from_cell of a world cell is unaffected (up to rounding) by expansion.", "quantifier": "every reachable map and cell", "why_tests_cant": "The f32 space (2^32 values per argument, with NaN, infinities, signed zeros and subnormals) cannot be enumerated by examples.", "anchors": ["src/map/grid_map.rs point_from_cell, cell_from_point"]}
{"id": "C29", "title": "A cast ray is a connected path", "statement": "If cast_ray returns cells, the first is the origin's cell, consecutive cells differ by exactly one step along exactly one axis, and every step along an axis is in the sign of the ray's direction on that axis.", "quantifier": "every f32 origin, end, bounds, resolution, max_len for which it returns, 2D and 3D", "why_tests_cant": "The path depends on rounding of every intermediate float and on the ray direction; examples cover a few directions.", "anchors": ["src/ray_caster.rs cast_ray"]}
{"id": "C30", "title": "A ray inside one cell", "statement": "If origin and end fall in the same cell, cast_ray returns no ray cells and that cell as end cell, whatever max_len is.", "quantifier": "every input with both points in one cell", "why_tests_cant": "The path depends on rounding of every intermediate float and on the ray direction; examples cover a few directions.", "anchors": ["src/ray_caster.rs cast_ray early return"]}
{"id": "C31", "title": "A completed ray is a shortest monotone path", "statement": "If cast_ray returns an end cell it is the end point's cell, is not among the ray cells, the ray cells have no duplicates, number exactly the Manhattan distance between origin and end cells, and all lie in the box spanned by those two cells.", "quantifier": "every f32 input for which an end cell is returned", "why_tests_cant": "The path depends on rounding of every intermediate float and on the ray direction; examples cover a few directions.", "anchors": ["src/ray_caster.rs cast_ray"]}
{"id": "C32", "title": "max_len cuts the ray", "statement": "With positive max_len every returned ray cell but the first passes the distance test, no end cell is returned exactly when a cell failed the test before the end cell was reached, and the result is the prefix of the unlimited ray up to the first failing cell; with max_len <= 0 or NaN nothing is cut.", "quantifier": "every f32 input for which it returns", "why_tests_cant": "The path depends on rounding of every intermediate float and on the ray direction; examples cover a few directions.", "anchors": ["src/ray_caster.rs cast_ray max_len"]}
{"id": "C33", "title": "cast_ray always returns", "statement": "cast_ray returns for every origin, end, bounds, positive resolution and max_len.", "quantifier": "every f32 input", "why_tests_cant": "Non-termination cannot be observed by a passing test; it needs particular inputs (NaN, huge coordinates, end point exactly on a corner).", "anchors": ["src/ray_caster.rs cast_ray loop"]}
{"id": "C34", "title": "Ideal ray casting visits the cells the segment crosses", "statement": "In exact arithmetic, when the end point is not on a cell boundary, cast_ray with no length limit returns after exactly the Manhattan distance in steps, each visited cell (closed) contains a point of the segment, and every cell whose interior meets the segment is visited.", "quantifier": "every real origin, end, offset and positive resolution, 2D and 3D", "why_tests_cant": "The path depends on rounding of every intermediate float and on the ray direction; examples cover a few directions.", "anchors": ["src/ray_caster.rs cast_ray"]}
{"id": "C35", "title": "Axis-aligned rays always reach their end", "statement": "In f32 arithmetic, a ray whose end differs from its origin in one coordinate only returns with exactly the cells between, in order.", "quantifier": "every f32 axis-aligned ray in the stated range, 2D and 3D, both directions", "why_tests_cant": "The path depends on rounding of every intermediate float and on the ray direction; examples cover a few directions.", "anchors": ["src/ray_caster.rs cast_ray"]}
{"id": "C36", "title": "cast_rays separates free and occupied cells", "statement": "The occupied set is exactly the set of end cells of the individual rays, the free set is exactly the cells crossed by some ray that are not occupied; the two are disjoint.", "quantifier": "every point cloud for which every ray returns", "why_tests_cant": "Unbounded number of points.", "anchors": ["src/ray_caster.rs cast_rays"]}
{"id": "C37", "title": "cast_rays ignores the order of points", "statement": "Permuting or duplicating the points of a cloud changes neither the free nor the occupied set.", "quantifier": "every point cloud and permutation", "why_tests_cant": "All permutations of unbounded lists.", "anchors": ["src/ray_caster.rs cast_rays"]}
{"id": "C38", "title": "A positive max_len bounds the work", "statement": "With positive finite max_len, finite points and coordinates in the stated range, cast_ray returns within a bound on the number of steps that depends only on max_len/resolution.", "quantifier": "every f32 input in the stated range", "why_tests_cant": "The path depends on rounding of every intermediate float and on the ray direction; examples cover a few directions.", "anchors": ["src/ray_caster.rs cast_ray"]}
{"id": "C39", "title": "Noise model constructor validates probabilities", "statement": "LidarNoiseModel::new panics exactly when one of the five probabilities is NaN or outside [0,1]; otherwise each stored log-odds is the log-odds of the corresponding argument and max_range is kept. The default model is never refused; its hits have probability 0.7, its misses 0.4, its limits are 0.1192 and 0.971, its threshold is one half and its range 60.", "quantifier": "every f32 argument tuple, every logarithm", "why_tests_cant": "The f32 space (2^32 values per argument, with NaN, infinities, signed zeros and subnormals) cannot be enumerated by examples.", "anchors": ["src/map/lidar_noise_model.rs LidarNoiseModel::new"]}
{"id": "C40", "title": "Cell values stay within the clamping limits", "statement": "With hit log-odds >= 0 >= miss log-odds and min <= 0 <= max, after any history of integrate_point_cloud calls on a map that started empty every cell value is between the min and max log-odds; without the sign conditions this fails.", "quantifier": "every history, every noise model with the stated signs", "why_tests_cant": "Unbounded histories of updates and all f32 parameter values.", "anchors": ["src/map/lidar_noise_model.rs integrate_hit, integrate_miss, integrate_point_cloud"]}
{"id": "C41", "title": "integrate_point_cloud updates exactly the observed cells", "statement": "When it returns, every occupied cell holds min(old + hit, max), every free cell max(old + miss, min), and every other cell its old value at the same metric location (default if new).", "quantifier": "every reachable map, cloud and origin", "why_tests_cant": "Unbounded histories of updates and all f32 parameter values.", "anchors": ["src/map/lidar_noise_model.rs integrate_point_cloud"]}
{"id": "C42", "title": "Result does not depend on hash iteration order", "statement": "The map after integrate_point_cloud, whether it panics, and the multiset of reported cells are the same for every iteration order of the free and occupied hash sets.", "quantifier": "every pair of iteration orders", "why_tests_cant": "Iteration order is randomised per process; tests see one sample.", "anchors": ["src/map/lidar_noise_model.rs integrate_point_cloud HashSet loops"]}
{"id": "C43", "title": "Cell values never become NaN", "statement": "If the clamping limits are not NaN, no integrate_hit or integrate_miss ever stores NaN, even from NaN or infinite values.", "quantifier": "every f32 cell value and model with non-NaN limits", "why_tests_cant": "The f32 space (2^32 values per argument, with NaN, infinities, signed zeros and subnormals) cannot be enumerated by examples.", "anchors": ["src/map/lidar_noise_model.rs integrate_hit, integrate_miss"]}
{"id": "C44", "title": "Evidence is monotone", "statement": "With hit >= 0 a hit never lowers a value that is at most max, with miss <= 0 a miss never raises a value that is at least min; an occupied cell stays occupied under hits and a free cell stays free under misses; occupied holds exactly when the value exceeds the threshold.", "quantifier": "every f32 value and model with the stated signs, any number of updates", "why_tests_cant": "Unbounded histories of updates and all f32 parameter values.", "anchors": ["src/map/lidar_noise_model.rs integrate_hit, integrate_miss, occupied"]}
{"id": "C45", "title": "Change tracking reports every touched cell", "statement": "With tracking on, integrate_point_cloud appends exactly the free and occupied cells, each once, to the reported list, so every cell whose value changed is reported; with tracking off it appends nothing; clear_changed_cells empties the list.", "quantifier": "every reachable map and cloud", "why_tests_cant": "Unbounded histories of updates and all f32 parameter values.", "anchors": ["src/map/lidar_noise_model.rs integrate_point_cloud", "src/map/grid_map.rs add_changed_cells, clear_changed_cells"]}
{"id": "C46", "title": "Reported cells keep denoting the same place", "statement": "A cell index reported by changed_cells denotes the same metric location after later integrate_point_cloud calls.", "quantifier": "every history", "why_tests_cant": "Only fails when an expansion moves the map's minimum corner.", "anchors": ["src/map/grid_map.rs changed_cells, expand_bounds", "viz/src/bin/draw_occupancy_grid.rs tracked_cells"]}
{"id": "C47", "title": "Integrating a finite cloud does not panic", "statement": "integrate_point_cloud does not panic for finite points and a finite origin.", "quantifier": "every finite cloud and origin", "why_tests_cant": "Fails only for origins outside the cloud's box or points just below a tile edge.", "anchors": ["src/map/lidar_noise_model.rs integrate_point_cloud"]}
{"id": "C48", "title": "KITTI point cloud decoding", "statement": "point_cloud_reader::read fails exactly when the byte count is not a multiple of 16; otherwise it returns one point per 16 bytes whose three coordinates have exactly the bit patterns of the first three 4-byte words of the record in native byte order; the fourth word is ignored.", "quantifier": "every byte string, both byte orders", "why_tests_cant": "Unbounded input; all bit patterns including NaN payloads.", "anchors": ["src/kitti/point_cloud_reader.rs read"]}
{"id": "C49", "title": "KITTI point cloud round-trip", "statement": "Decoding the encoding of any list of points with any intensities gives back exactly those points.", "quantifier": "every list of points and intensities", "why_tests_cant": "Unbounded input.", "anchors": ["src/kitti/point_cloud_reader.rs read"]}
{"id": "C50", "title": "OXTS record acceptance", "statement": "oxt_reader::read succeeds exactly when the input is valid UTF-8, splits on single spaces into at least six fields and the first six parse as floats; fields after the sixth are irrelevant.", "quantifier": "every byte string, every float parser", "why_tests_cant": "Unbounded input.", "anchors": ["src/kitti/oxt_reader.rs read, str_to_float"]}
{"id": "C51", "title": "OXTS poses are relative to the first record", "statement": "read_from_dir gives the first file zero translation and every later file the metric displacement of its GPS position from the first file's GPS position; read with an origin returns that origin unchanged.", "quantifier": "every non-empty directory of readable files", "why_tests_cant": "Unbounded number of files; the origin is threaded through a closure.", "anchors": ["src/kitti/oxt_reader.rs read, read_from_dir"]}
{"id": "C52", "title": "GPS displacement", "statement": "gps_to_meters of the origin itself is zero; the north and up components are the scaled differences; the east component should be the difference in longitude scaled by the circumference at the latitude.", "quantifier": "every GPS point and origin", "why_tests_cant": "The f32 space (2^32 values per argument, with NaN, infinities, signed zeros and subnormals) cannot be enumerated by examples.", "anchors": ["src/kitti/oxt_reader.rs gps_to_meters"]}
{"id": "C53", "title": "Directory listing order is deterministic", "statement": "seq_files_in_dir returns each directory entry exactly once in ascending order of name, whatever order the OS lists them in, and fails if any entry fails.", "quantifier": "every directory and listing order", "why_tests_cant": "All permutations of unbounded listings.", "anchors": ["src/kitti/fs.rs seq_files_in_dir"]}
{"id": "C54", "title": "File order is frame order", "statement": "For file names that are equal-length decimal indices followed by the same extension, the listing order is numeric order; for names of different length it need not be.", "quantifier": "every set of index names", "why_tests_cant": "Unbounded indices.", "anchors": ["src/kitti/fs.rs seq_files_in_dir doc comment"]}
{"id": "C55", "title": "Directory readers return one result per file or the first error", "statement": "read_from_dir (poses and point clouds) returns one element per file in listing order when all files are readable, and otherwise the error of the first failing file in that order; files after it are not read.", "quantifier": "every directory content", "why_tests_cant": "Unbounded number of files and failure positions.", "anchors": ["src/kitti/point_cloud_reader.rs read_from_dir", "src/kitti/oxt_reader.rs read_from_dir"]}
{"id": "C56", "title": "Progress printing does not affect results", "statement": "read_from_dir gives the same result with print_status on and off.", "quantifier": "every directory content", "why_tests_cant": "Fails only for file names that are not UTF-8.", "anchors": ["src/kitti/point_cloud_reader.rs read_from_dir", "src/kitti/oxt_reader.rs read_from_dir"]}
{"id": "C57", "title": "The visualiser does not deadlock", "statement": "In every interleaving of the render loop with the worker threads it spawns, the render thread is never blocked forever, although the two take the two mutexes in opposite orders.", "quantifier": "every schedule and any number of frames", "why_tests_cant": "Depends on every interleaving of the render thread and worker threads.", "anchors": ["viz/src/bin/draw_occupancy_grid.rs integrate_next_pointcloud"]}
{"id": "C58", "title": "At most one worker at a time, no change report is lost", "statement": "In every schedule at most one worker is integrating, and each worker's reported cells are consumed by the render thread exactly once before the next worker starts.", "quantifier": "every schedule and any number of frames", "why_tests_cant": "Depends on every interleaving of the render thread and worker threads.", "anchors": ["viz/src/bin/draw_occupancy_grid.rs integrate_next_pointcloud"]}
{"id": "C59", "title": "Displayed cells are the occupied cells", "statement": "After the render thread has consumed the reports, the displayed cells are exactly the occupied cells, provided no expansion moved the map's minimum corner in between.", "quantifier": "every schedule and history", "why_tests_cant": "Depends on every interleaving of the render thread and worker threads.", "anchors": ["viz/src/bin/draw_occupancy_grid.rs integrate_next_pointcloud"]}
{"id": "C60", "title": "A panicking worker freezes the display without crashing it", "statement": "If a worker panics during integration, no later frame is ever integrated, and the render thread neither panics nor blocks.", "quantifier": "every schedule after a worker panic", "why_tests_cant": "Depends on every interleaving of the render thread and worker threads.", "anchors": ["viz/src/bin/draw_occupancy_grid.rs integrate_next_pointcloud"]}
{"id": "C61", "title": "Frames are replayed cyclically", "statement": "The n-th started integration uses frame n modulo the number of frames, with the pose and cloud of the same index; an empty data set panics at the first frame.", "quantifier": "every number of frames and every schedule", "why_tests_cant": "Depends on every interleaving of the render thread and worker threads.", "anchors": ["viz/src/bin/draw_occupancy_grid.rs integrate_next_pointcloud index"]}
{"id": "C62", "title": "f32 ray casting follows the segment", "statement": "In f32 arithmetic, when the end point is at least a sixteenth of a cell away from every cell border, cast_ray with no length limit returns the end cell after exactly the Manhattan distance in steps, every visited cell grown by a sixteenth of a cell contains a point of the segment, and every cell that the segment enters by more than a sixteenth of a cell is visited.", "quantifier": "every origin, end and offset up to 2^15 cells from zero with at most 1023 cells between origin and end on each axis, every resolution between 2^-30 and 2^30, 2D and 3D", "why_tests_cant": "Rounding errors accumulate over the steps and depend on every input bit; a test sees a few rays.", "anchors": ["src/ray_caster.rs cast_ray"]}
{"id": "C63", "title": "A length limit cuts an f32 ray at the limit", "statement": "For rays as in C62 and a positive length limit, cast_ray returns; every visited cell except the first has its centre at most the limit plus a thirty-second of a cell away from the origin, and every cell that the segment enters by more than a sixteenth of a cell at a distance of at most the limit minus one cell is visited.", "quantifier": "every origin, end, offset and resolution in the range of C62, every limit up to 2^20 cells, 2D and 3D", "why_tests_cant": "The cut depends on the rounding of the squared distance and of the limit; tests use a few limits.", "anchors": ["src/ray_caster.rs cast_ray max_len"]}
{"id": "C64", "title": "A scan marks what its beams cross", "statement": "Integrating a scan whose beams are in range returns, and afterwards the world cell around the end of every beam that the maximum range does not cut holds its old value plus the hit evidence, clamped; every world cell that a beam crosses before the maximum range and in which no beam ends holds its old value plus the miss evidence, clamped; every world cell that no beam comes near, and every world cell more than three cells beyond the maximum range, keeps its value; cells that were not in the map before start from zero.", "quantifier": "every reachable map with tile size up to 2^17, every scan whose points are within 1023 cells of the sensor on each axis, 2^15 cells of zero and an eighth of a cell away from cell borders, the sensor inside of the grown map, every noise model with no limit or a limit up to 2^20 cells, every iteration order of the hash sets", "why_tests_cant": "The claim combines the growth of the map, the index arithmetic, the rounding of every ray step and the overlap of any number of beams; tests check a few cells after a few scans.", "anchors": ["src/map/lidar_noise_model.rs integrate_point_cloud", "src/ray_caster.rs cast_rays", "src/map/grid_map.rs expand_bounds"]}
{"id": "C65", "title": "Scans add up", "statement": "After any sequence of in-range scans into a new map, the value of a world cell is obtained from zero by adding, in order and clamped each time, the hit evidence of every scan with a beam ending in the cell and the miss evidence of every scan whose beams only cross it; scans that stay away from it do not count. Every further in-range scan is integrated without failing.", "quantifier": "every resolution and tile size up to 2^17, every number and sequence of scans in the range of C64, every 2D or 3D world cell that each scan hits, crosses or misses by more than an eighth of a cell, every iteration order", "why_tests_cant": "Histories are unbounded and the map is re-laid out while it grows; tests integrate one or two clouds.", "anchors": ["src/map/occupancy_grid_map.rs integrate_point_cloud", "src/map/lidar_noise_model.rs integrate_point_cloud"]}
{"id": "C66", "title": "A static scene is mapped right", "statement": "With evidence of the expected signs: a world cell in which beams end in some scans and that no scan only crosses is reported occupied after any number of scans, provided one hit exceeds the threshold; a cell that is crossed by some scans and never hit is reported not occupied, provided the threshold is not negative. The default noise model meets both provisos.", "quantifier": "every sequence of scans as in C65, every such cell, every noise model with nonnegative hit and nonpositive miss evidence", "why_tests_cant": "It is about all scenes and all numbers of scans; tests look at single updates.", "anchors": ["src/map/occupancy_grid_map.rs occupied", "src/map/lidar_noise_model.rs occupied", "src/map/lidar_noise_model.rs default"]}
{"id": "C67", "title": "Rounding of a transformed cloud", "statement": "For a 3D cloud and matrix whose entries are at most 2^40 in size, every coordinate computed by transform is finite and within 5*2^-24 times the sum of the absolute values of its four terms (plus 2^-147) of the exact affine value. Hence a matrix whose columns are orthonormal up to d changes the distance of any two points of a cloud within D of the origin, with translation within D, by at most 3d times the distance plus 72*2^-24*D plus 2^-140, for d up to 2^-10 (less than half a millimetre for d = 0 and D = 100 m).", "quantifier": "every cloud, matrix and pair of points in the stated range", "why_tests_cant": "Rounding errors differ for every combination of eleven floats; a test compares a handful of results with a tolerance chosen to make it pass.", "anchors": ["src/geom/point_cloud.rs PointCloud::transform"]}
{"id": "C68", "title": "Approximate equality of boxes", "statement": "Approximate comparison of boxes (abs_diff_eq and relative_eq) is symmetric. relative_eq holds of a box and itself exactly when no coordinate is NaN, abs_diff_eq with a tolerance of at least zero exactly when all coordinates are finite. Equal boxes are relatively equal. With the default tolerances finite boxes whose coordinates differ by at most 2^-23 of the larger (or of one) are relatively equal, and relatively equal boxes differ by at most 2^-23 + 2^-46 of it; where one of two coordinates is at least one in size the bound 2^-23 is exact in both directions. The relation is not transitive. Whatever the tolerances, relatively equal boxes have no NaN, and a coordinate that is infinite in one is the same in the other.", "quantifier": "every pair of boxes, every tolerance, NaN and infinities included", "why_tests_cant": "The comparison is itself used as the oracle of the repository's tests, so no test can show it wrong; all pairs of floats matter.", "anchors": ["src/geom/bounds.rs abs_diff_eq", "src/geom/bounds.rs relative_eq"]}
{"id": "C69", "title": "The whole visualiser maps and shows a static scene", "statement": "For a recording in range (coordinates at most 2^14 cells from zero, sensor inside the box of each cloud, beams at most 1023 cells per axis whose ends keep clear of cell borders and of the upper edge), in every interleaving: no thread ever panics and every worker that has not ended can go on; the map always is the result of integrating the frames of the recording cyclically, all started ones except at most the one being worked on. Under a fair scheduler integration never stops, and a world cell about which all frames agree (some hit it and none passes, or some pass and none hits) from some time on has that state for ever. If no later cloud reaches below the first, then from some time on the display shows the cell if and only if it is hit, at the right place. Fair executions exist.", "quantifier": "every recording in range, noise model, dimension, resolution and tile size in range, every interleaving of the threads (fair ones for the liveness part) and every time; in particular the parameters of the program", "why_tests_cant": "It is a statement about infinite executions under all schedules, combining the float range analysis of integration with the protocol between the threads.", "anchors": ["viz/src/bin/draw_occupancy_grid.rs integrate_next_pointcloud", "src/map/lidar_noise_model.rs integrate_point_cloud", "src/map/grid_map.rs expand_bounds"]}
{"id": "C70", "title": "Poses are rigid motions", "statement": "The pose made from roll, pitch and yaw turns about x by roll, then about y by pitch, then about z by yaw, and then translates; in exact arithmetic exactly so. In f32, with sine and cosine accurate to 2^-24 on [-4,4] and angles up to 8, the columns of the matrix are the turned axes up to 2^-17 per entry, the matrix is orthonormal up to 2^-15 and its last column and row are the translation and 0,0,0,1. Hence transforming a cloud keeps the distance of any two of its points up to 3*2^-15 of it plus 72*2^-24 of the size of the coordinates plus 2^-140.", "quantifier": "every triple of angles up to 8, every translation, every cloud with coordinates up to 2^40, every sufficiently accurate sine and cosine", "why_tests_cant": "The order and direction of three rotations and the accumulated rounding of quaternion and matrix are a statement about all angles; a test sees single ones, and the repository's own tests read no rotation but that of its sample files.", "anchors": ["src/kitti/oxt_reader.rs read", "src/geom/pose.rs Pose3", "src/geom/point_cloud.rs transform", "viz/src/bin/draw_occupancy_grid.rs main"]}
{"id": "C71", "title": "From the folder to the frames", "statement": "The visualiser opens its window exactly if all its arguments are text, the first names a directory, and the two data directories can be listed and contain equally many files, all readable as poses and clouds. It ends without a window exactly if the first argument is not a directory, and panics in all other cases. What a folder contains is unambiguous. The k-th worker started gets the cloud and the pose of the same place in the order of names, going round after the last. Every point of a cloud file is put where roll, pitch, yaw and the position (relative to the first pose) of the pose file of that place say, up to 2^-15 of the size of the coordinates.", "quantifier": "every list of arguments, every file system content, every behaviour of the float parsers and of the cosine, every accurate sine and cosine for the last part, every interleaving of the threads", "why_tests_cant": "The command line, the folder contents and the failure of any single file are inputs no unit test of the repository touches; main has no tests.", "anchors": ["viz/src/bin/draw_occupancy_grid.rs main", "src/kitti/oxt_reader.rs read_from_dir", "src/kitti/point_cloud_reader.rs read_from_dir", "src/kitti/fs.rs seq_files_in_dir"]}
{"id": "C72", "title": "The unused resizing of arrays", "statement": "_resized_ndarray2/3, which the code keeps but does not use because of floating point errors, is correct for boxes of whole cells up to 2^19 cells from zero and resolutions of at least 2^-21: it returns an array of the size of the new box in which every cell of the world that both boxes contain has its old value and every other cell the default. For every map that a sequence of operations produces it gives the same array as expand_bounds. It is not correct beyond: five million cells from zero it panics, growing or shrinking, because the two slices differ in size, for boxes off the grid it copies one value into two cells or panics, and with cells smaller than the tolerance of the comparison of boxes it loses all values.", "quantifier": "every pair of boxes in range, every array, every element type, 2-D and 3-D; every reachable map and request", "why_tests_cant": "The code has no test (it is dead because its author could not make it reliable); the range in which it works is a statement about all boxes.", "anchors": ["src/map/grid_map.rs _resized_ndarray2", "src/map/grid_map.rs _resized_ndarray3", "src/geom/bounds.rs overlapping"]}
{"id": "C73", "title": "From the files to the display", "statement": "Take a folder of poses and clouds of reasonable size (angles in radians, vehicle within 200 m of the start on each axis, points within 100 m of the sensor). The scene of a frame is what the numbers in its files mean: the points of the cloud file turned by roll, pitch and yaw and shifted by the position, in exact arithmetic. If the scenes leave room for rounding (a sixteenth of a cell on top of the margins of C69), then no thread of the visualiser started on the folder ever panics or gets stuck; and if no scene reaches below the first, then every cell of the world about which the scenes agree - a point lies well inside of it, or a beam of at most 60 m passes well through it and no point lies near it - is from some time on permanently on display at its place, respectively not on display, under every fair schedule of the threads.", "quantifier": "every folder, every accurate sine and cosine, every behaviour of the float parsers and of cos64, every monotone logarithm with the usual special values, every interleaving, every fair infinite execution, every cell", "why_tests_cant": "No test of the repository goes from files to the display; the claim is about all folders and all infinite executions.", "anchors": ["viz/src/bin/draw_occupancy_grid.rs main", "src/kitti/oxt_reader.rs", "src/kitti/point_cloud_reader.rs", "src/geom/point_cloud.rs transform", "src/map/noise_model.rs integrate_point_cloud"]}
{"id": "C74", "title": "Expanding a map made for any box keeps its values", "statement": "When a map made by GridMapN::new for an ordered box is expanded, every value stored in it is still in the expanded map, in the cell that stands for the same part of the world.", "quantifier": "every element type, box, tile size, resolution, sequence of writes, requested box", "why_tests_cant": "A row is lost only when the size of the box and the difference of its rounded corners disagree; nothing panics.", "anchors": ["src/map/grid_map.rs GridMapN::new, expand_bounds"]}
{"id": "C75", "title": "A changed scene is noticed after a bounded number of scans", "statement": "Because the evidence of a cell is limited, the map forgets: whatever was scanned before, once n scans have only crossed a cell of the world (scans that do not see it may come in between), with n times the miss evidence at least the distance from the upper limit to the threshold (up to a thousandth), the cell is free; and once enough scans have hit it, it is occupied. With the default probabilities nine crossings and three hits are always enough, and these numbers are exact: after seven hits eight crossings leave the cell occupied, after fourteen crossings two hits leave it free.", "quantifier": "every model whose evidence is not lost in rounding, every logarithm accurate to two units in the last place, every earlier history of scans in range, every cell, every order in which sets of cells are iterated", "why_tests_cant": "The tests integrate at most a few clouds and check single cells; the claim is about all histories and all roundings along them.", "anchors": ["src/map/lidar_noise_model.rs integrate_hit, integrate_miss", "src/map/lidar_noise_model.rs default", "src/map/occupancy_grid_map.rs integrate_point_cloud, occupied"]}
{"id": "C76", "title": "Log-odds in f32 are accurate", "statement": "If the logarithm and the exponential are accurate to 2^-22 relative, then for every f32 probability p from 2^-100 up to but excluding 1 the computed log-odds differ from ln(p/(1-p)) by at most 2^-22 (1 + |ln(p/(1-p))|); for every log-odds l with |l| <= 64 the computed probability lies in [0, 1] and differs from e^l/(1+e^l) by at most 2^-22; and converting a probability from 2^-80 on to log-odds and back changes it by at most 2^-21.", "quantifier": "every f32 in range, every accurate ln and exp", "why_tests_cant": "The tests compare five values; the claim bounds the error for all of the about 10^9 probabilities and for every libm.", "anchors": ["src/math.rs logodds_from_probability", "src/math.rs probability_from_logodds"]}
{"id": "C77", "title": "A recording played round and round leaves a periodic map", "statement": "The worker plays the recording in an endless loop. For scans in range and any model with finite hit and miss evidence and limits that are not NaN, once every scan of the recording has been integrated 2^32 + 1 times, integrating the whole recording once more leaves the box, the number of cells and the value and state of every cell as they were; the same holds for the cells on display if the first cloud has the lowest corner. The map need not become constant between rounds: two frames that disagree about a cell can switch it for ever.", "quantifier": "every recording in range, every model with finite evidence (the default one with any accurate logarithm), every number of further rounds, every schedule of the threads, every order in which sets of cells are iterated", "why_tests_cant": "The tests integrate at most a few clouds; the claim is about endless runs with rounding at every step, and rests on the monotonicity of rounded addition and on the finiteness of f32.", "anchors": ["viz/src/bin/draw_occupancy_grid.rs integrate_next_pointcloud", "src/map/lidar_noise_model.rs integrate_hit, integrate_miss", "src/map/occupancy_grid_map.rs integrate_point_cloud, occupied"]}
{"id": "C78", "title": "The order of scans", "statement": "As long as the hits alone stay below the upper limit and the misses alone above the lower one, the value of a cell differs from the exactly added evidence by at most one rounding per scan that saw it (2^-24 of the larger limit), so two maps made of the same scans in different orders differ by at most twice that in every cell and agree about its state unless the sum is that close to the threshold. With the default probabilities up to four hits and four crossings in whatever order leave the cell occupied exactly if there are at most twice as many crossings as hits. Once the limits are reached the order matters: the same three hits and nine crossings leave a cell free or occupied.", "quantifier": "every model with moderate numbers, every logarithm accurate to two units in the last place for the default one, every list of scans in range and every permutation of it, every cell, every order in which sets of cells are iterated", "why_tests_cant": "The tests integrate one cloud or the same cloud repeatedly; the claim is about all permutations of all lists of scans and the accumulated rounding.", "anchors": ["src/map/lidar_noise_model.rs integrate_hit, integrate_miss", "src/map/lidar_noise_model.rs default", "src/map/occupancy_grid_map.rs integrate_point_cloud, occupied"]}
{"id": "C79", "title": "Which cells a ray passes", "statement": "The cells a ray passes are exactly those whose borders come in the right order: along each axis the program crosses the borders at its first crossing plus so many roundings of the spacing, and a cell belongs to the ray if and only if on any two axes the last border before the cell is crossed before the first border behind it, where of two borders met at once that of the later axis is crossed first. The ray without limit returns if and only if its end cell is such a cell (C33). A ray that is cut for its length consists of the cells on its way before the first one that is too far.", "quantifier": "every origin, end, offset and resolution whose first crossings are above minus infinity and whose spacings are not negative, in particular all rays in range", "why_tests_cant": "The tests compare a few rays with written-out lists of cells.", "anchors": ["src/ray_caster.rs cast_ray"]}
{"id": "C80", "title": "Exactly when a scan is taken in", "statement": "A ray returns if and only if on its way (C79) lies its end cell, or another cell that is too far; it returns the cells on the way before the first such cell. A scan is taken in if and only if on the way to every point there is a cell that ends the ray such that all cells on the way before it, and the end cell if it is that one, are in the grown map. If all rays return but one leaves the map, the program panics.", "quantifier": "every reachable map, every acceptable scan whose rays are timely, in particular all rays in range, every order of the sets", "why_tests_cant": "The tests integrate two scans that stay in the map; the condition is about all scans and all positions of the sensor.", "anchors": ["src/ray_caster.rs cast_ray", "src/map/lidar_noise_model.rs integrate_point_cloud"]}
{"id": "C81", "title": "What a scan writes", "statement": "A ray reports as its end the cell at which it stops if that is the cell of its end point, and no end otherwise; it reports as free exactly the cells it crosses before. After a scan has been taken in, a place in whose cell some ray with its end point there stops holds its old value plus the hit evidence, at most the maximum; any other place that some ray crosses holds its old value plus the miss evidence, at least the minimum; every other place keeps its value, and places new in the map start from zero. The cells reported as changed are exactly those of the first two kinds, each once, if changes are tracked, and none otherwise.", "quantifier": "every reachable map, every acceptable scan whose rays are timely (in particular all rays in range), every limit, every order of the sets", "why_tests_cant": "The tests look at the result of two scans; the statement gives the whole result of every scan without running the program's walk.", "anchors": ["src/map/lidar_noise_model.rs integrate_point_cloud", "src/ray_caster.rs cast_rays", "src/ray_caster.rs cast_ray"]}
{"id": "C82", "title": "Mirror images", "statement": "Changing the sign of some coordinates of the sensor, of the end point and of the corner of the map changes the sign of the same coordinates of all cells of a ray and of its end, and nothing else: the ray has the same number of cells, is cut at the same cell, and returns, panics or goes on exactly like the original; likewise for the free and occupied cells of a scan. This holds bit for bit, including rounding, ties, overflow to infinity and zeros of both signs.", "quantifier": "all floats as coordinates, resolution and limit, provided the direction of the ray has no coordinate that is not a number and the start and end cell are at most 2^62 cells from zero; every choice of axes; 2-D and 3-D", "why_tests_cant": "The tests check four diagonals of one grid; the symmetry is about all rays, among them those where rounding or ties decide which cell comes next.", "anchors": ["src/ray_caster.rs cast_ray", "src/ray_caster.rs cast_rays", "src/geom/converter.rs cell_from_point"]}
{"id": "C83", "title": "What a frame shows", "statement": "A frame consists of the points on display in one colour and of a marker: three lines of length one in red, green and blue, which start exactly at the position of a pose and end at its x, y and z axis (roll about x, then pitch about y, then yaw about z), up to 2^-15 plus 2^-24 of the size of the coordinates. The pose is that of the scan to be started next, because the index is advanced before drawing: the marker is ahead of the scan that is being integrated.", "quantifier": "all folders whose files can be read, all accurate sine and cosine functions, angles up to 8 radians, positions up to 2^40; every schedule of the threads and every frame; in exact arithmetic all poses and lengths", "why_tests_cant": "Nothing of the visualizer is tested, and which pose is shown depends on the interleaving of the render thread with the workers; the rounding bound is about all poses.", "anchors": ["viz/src/bin/draw_occupancy_grid.rs draw_frame_marker", "viz/src/bin/draw_occupancy_grid.rs step"]}
{"id": "C84", "title": "The unit of length does not matter", "statement": "If every length (points, origin, resolution, range, box) is given in a unit 2^k times smaller, then the cell of a point, the cells of a ray and of a scan, and the map after any sequence of scans are the same, cell by cell and value by value, and so is whether the program returns or panics: nothing in the code compares a length with a constant, and the rounding of f32 commutes with the change of unit.", "quantifier": "all k, all 2-D and 3-D points, boxes, clouds, noise models and sequences of scans with coordinates zero or between 2^-36 and 2^20 and cell sizes between 2^-20 and 2^20 in both units, rays of up to 2^38 steps; refuted for arbitrary sizes (underflow) and for factors that are not powers of two", "why_tests_cant": "The tests use one unit only; that the results agree bit for bit for all inputs is a statement about the rounding of every operation of the ray caster.", "anchors": ["src/ray_caster.rs cast_ray", "src/geom/converter.rs", "src/map/grid_map.rs expand_bounds", "src/map/lidar_noise_model.rs integrate_point_cloud"]}
{"id": "C85", "title": "How large a map gets", "statement": "A map that started empty covers exactly the tiles of the cells of the smallest box around all boxes it has been asked to cover, in whatever steps it has grown: rounding out to cells and tiles at every step does not make the map creep. So the bounds and the numbers of cells do not depend on the order of the scans, on how often each was made or on the sensor, and an axis never has more cells than lie between the outermost coordinates plus two tiles and two fifths of a cell. The map of the visualiser never gets larger than this for its recording, however long it plays, and once every frame has been played its size is the same in all executions and for ever.", "quantifier": "every sequence of requests, scans, writes and changes of tracking on a map that was empty, 2-D and 3-D, every tile size and resolution in range; every recording in range and every execution of the threads", "why_tests_cant": "Creeping growth shows up after many steps and only for particular coordinates; the claim is about sequences of any length in any order.", "anchors": ["src/map/grid_map.rs expand_bounds", "src/geom/bounds.rs discretized, enclosing", "src/geom/cell_bounds.rs discretized", "src/geom/point_cloud.rs bounds", "viz/src/bin/draw_occupancy_grid.rs step"]}
{"id": "C86", "title": "The first two axes are alike", "statement": "Exchanging the first two axes of everything exchanges them in the result: a ray passes through the exchanged cells in the same order and returns, panics or goes on alike; a scan gives the exchanged free and occupied cells; a new map is its own exchange; growing an exchanged map to an exchanged box gives the exchanged map; any sequence of exchanged scans gives the exchanged map with the same values, whatever order the cells are gone through, and the exchanged cells are occupied. For rays this needs that no two borders of the two axes are crossed at the same place: there the later axis goes first. The third axis is not like the others: exchanging the first and the third sends a ray through other cells even without such ties, because the length of the ray is added up from the left.", "quantifier": "every ray, scan and sequence of scans in 2-D and 3-D without ties between the first two axes, every resolution, tile size, noise model, range and order of iteration", "why_tests_cant": "A slip with one axis shows up only for rays and maps that differ along the axes; tests use few rays, and the existing ones never compare a ray with its exchange.", "anchors": ["src/ray_caster.rs:7-138 cast_rays, cast_ray", "src/map/grid_map.rs expand_bounds", "src/map/lidar_noise_model.rs:116-150 integrate_point_cloud", "src/geom/bounds.rs", "src/geom/cell_bounds.rs"]}
{"id": "C87", "title": "Numbers in text files are read correctly", "statement": "Every decimal text (optional sign, digits with an optional point, optional exponent) is read as the floating-point number nearest to what it denotes, the even one of two equally near ones, infinite beyond the largest; a text denotes one number at most; inf, infinity and nan in any mixture of capitals are read too, and nothing else: no blanks, line breaks or commas. Larger numbers are never read as smaller ones, and 17 significant digits (9 for f32) give a number back exactly. Hence a file is accepted exactly when it is text with six such fields; from the numbers in the files of a directory to the northward and upward positions in metres the error is a relative 2^-23 and a few nanometres; a file of exactly six numbers and a line break is refused; a first file whose latitude is nan is accepted and makes every later northward position NaN.", "quantifier": "all byte strings, both floating-point formats, all directories, latitudes up to 90 degrees and altitudes up to 1000 km", "why_tests_cant": "Correct rounding and the exact set of accepted texts concern infinitely many strings; ties, overflow and odd notations are rare in sample files.", "anchors": ["src/kitti/oxt_reader.rs:9-20 str_to_float", "src/kitti/oxt_reader.rs:43-78 read", "src/kitti/oxt_reader.rs:87-112 read_from_dir"]}
{"id": "C88", "title": "Moving the corner of the grid by whole cells only renumbers the cells", "statement": "Cells are counted from the lower corner of the map, which moves down by whole cells when the map grows. A ray passes through the same places whatever corner the cells are counted from, and returns, panics or goes on alike; a scan has the same free and occupied places; and a scan writes the same values at the same places whether or not the map has been made larger before, whatever the orders of iteration. This holds in exact arithmetic, and in f32 arithmetic when all coordinates are multiples of a power of two and the resolution an even multiple. It does not hold with cells of 0.1: a scan that succeeds on a new map fails on the same map grown by four cells before, because the ray misses its end.", "quantifier": "all rays, scans and reachable maps in 2-D and 3-D, every number of cells the corner has moved by, coordinates up to 2^21 units of 2^q for every q from -60 to 30", "why_tests_cant": "Whether earlier growth influences later scans concerns pairs of histories; the failing rays are rare and depend on the last bits of the coordinates.", "anchors": ["src/ray_caster.rs:45-138 cast_ray", "src/map/grid_map.rs:211-297 expand_bounds", "src/map/lidar_noise_model.rs:116-150 integrate_point_cloud", "src/geom/converter.rs:7-44"]}
{"id": "C89", "title": "Moving the whole scene moves the map", "statement": "A ray whose ends and grid corner are all moved by the same vector passes through the same cells, and returns, panics or goes on alike: in exact arithmetic always, in f32 arithmetic when all coordinates are multiples of a power of two and the resolution an even multiple. If the sensors and all points of a series of scans are moved by whole cells and the scans are taken in both places, then the two maps say the same at every place and the place moved likewise, whatever the orders of iteration, and a point and the moved point read the same value; where only one of the maps can be read it reads zero. The maps themselves need not be of the same size, and a scan that a new map takes may be refused when moved, because the box a map grows to always contains the world's origin but not always the sensor.", "quantifier": "all rays, all series of scans starting from an empty map in 2-D and 3-D, every distance moved, coordinates up to 2^21 units of 2^q for every q from -60 to 30", "why_tests_cant": "The claim compares two whole histories for every distance moved; sample scans are all near the origin, where the influence of the origin on the map's extent does not show.", "anchors": ["src/ray_caster.rs:45-138 cast_ray", "src/map/lidar_noise_model.rs:116-150 integrate_point_cloud", "src/geom/point_cloud.rs bounds", "src/map/grid_map.rs:211-297 expand_bounds"]}
{"id": "C90", "title": "A ray and the ray back", "statement": "In exact arithmetic, the ray from the end to the origin passes through the same cells as the ray from the origin to the end, in the opposite order, provided neither end lies on a border of cells and the segment nowhere meets borders on two axes at once. Where it does meet a corner, the later axis goes first both ways, so that the rays there and back pass through different cells. In f32 arithmetic they agree when the segment keeps a sixteenth of a cell away from corners and its ends from borders; nearer to a corner they may differ even without meeting it.", "quantifier": "all segments in 2-D and 3-D, every resolution and grid corner, in real numbers; in f32 all rays of up to 1023 cells on each axis, coordinates up to 2^15 cells from the origin, resolutions from 2^-30 to 2^30", "why_tests_cant": "Whether two rays agree in every cell depends on the order of crossings for every segment; the exceptions are a set of measure zero and its neighbourhood of rounding size, which tests do not meet by chance.", "anchors": ["src/ray_caster.rs:45-138 cast_ray", "src/ray_caster.rs:95-125 choice of the axis to step"]}
{"id": "C91", "title": "From the text of the files to the display", "statement": "Take a folder whose pose files give, in decimal notation, places on earth within 199 m of the first on each axis and angles in radians, and whose cloud files hold points within 100 m of the sensor. What the texts and clouds mean is a list of scenes in real numbers: the points turned by roll, pitch and yaw and shifted to the metres east, north and up of the first record (east by the formula of the code, see C52). The numbers the program reads mean the same scenes up to a millimetre (2^-10 m) on each axis, and the window opens. If all scenes within a millimetre of these leave room for rounding as in C73, no thread ever panics or gets stuck. If further no scene reaches below the first, every cell of the world about which all scenes within a millimetre agree is from some time on permanently on display at its place, respectively not on display, under every fair schedule.", "quantifier": "every folder with the standard library's number parsing, every accurate sine and cosine, every monotone logarithm with the usual special values, every interleaving, every fair infinite execution, every cell", "why_tests_cant": "The claim goes from the characters in the files through parsing, geodesy, trigonometry, f32 geometry, ray casting and threads to the display, for all inputs and all schedules.", "anchors": ["src/kitti/oxt_reader.rs read, str_to_float, gps_to_meters", "src/kitti/point_cloud_reader.rs read", "viz/src/bin/draw_occupancy_grid.rs main, integrate_next_pointcloud, step"]}
{"id": "C92", "title": "Away from corners the f32 ray is the exact ray", "statement": "If the segment keeps a sixteenth of a cell away from every corner, and its ends from every border, then the ray caster in f32 arithmetic passes through exactly the same cells in the same order as the same program in exact arithmetic on the same coordinates, and the cells of the ends are those of exact arithmetic. If further no cell near the segment has its centre within a thirty-second of a cell of the length limit, the limited rays agree as well, cut or not, and the free and occupied cells of a scan of such rays are those of exact rays. Nearer to a corner the two may differ, even when the exact segment meets no corner.", "quantifier": "all rays in 2-D and 3-D of up to 1023 cells on each axis, coordinates up to 2^15 cells from the origin, resolutions from 2^-30 to 2^30", "why_tests_cant": "The running sums of the ray caster accumulate rounding errors for up to 3069 steps; agreement in every cell for every segment is a bound on the worst accumulated error, which samples do not give.", "anchors": ["src/ray_caster.rs:45-138 cast_ray", "src/geom/converter.rs:7-44"]}
{"id": "C93", "title": "A scan in two parts", "statement": "If the map is already large enough, a scan is taken in exactly if its two parts are taken in one after the other; the parts may share points, and every order of the hash sets may be used. The results differ only in cells that both parts observe: from the whole scan such a cell gets one observation, a hit if either part has a point in it, and from the parts it gets two, in their order. The cells reported as changed are the same. In particular, how often a point occurs in a scan and in which order the points come does not matter.", "quantifier": "all maps the program can reach, all clouds and all ways of dividing them, all noise models and origins, all iteration orders", "why_tests_cant": "The statement relates three runs on all clouds and all divisions; whether an implementation counts observations per ray or per scan shows only in cells crossed by several rays.", "anchors": ["src/map/lidar_noise_model.rs:116-150 integrate_point_cloud", "src/ray_caster.rs cast_rays"]}
{"id": "C94", "title": "Away from corners a scan marks exactly the cells its beams meet", "statement": "If the segment from the sensor to a point keeps a sixteenth of a cell away from every corner, and its ends from every border, then the cells which the f32 ray passes and ends in are exactly the cells that the segment of real numbers meets, in the order of their number of steps from the first. With a length limit the ray passes exactly those before the first cell whose centre is farther away than the limit, and reports its end exactly if there is none (when no centre is within a thirty-second of a cell of the limit). A scan of such beams is taken in exactly if the cells it hits and passes are in the grown map; then the cells hit get the evidence of a hit, the others passed that of a miss, and all other cells keep their values.", "quantifier": "all rays in 2-D and 3-D of up to 1023 cells on each axis, coordinates up to 2^15 cells from the origin, resolutions from 2^-30 to 2^30; all scans of such rays into all maps the program can reach, every iteration order", "why_tests_cant": "That no cell is missing and none is added, for every segment and after up to 3069 rounded steps, is a statement about all real parameters of the segment.", "anchors": ["src/ray_caster.rs cast_ray", "src/ray_caster.rs cast_rays", "src/map/lidar_noise_model.rs:116-150 integrate_point_cloud"]}
{"id": "C95", "title": "Rounding of the points changes nothing where the exact beams are clear", "statement": "Let the points of a scan and its origin be off by at most a 64th of a cell on each axis, and let the exact segments keep an eighth of a cell away from corners, borders (at the ends) and the length limit. Then each f32 ray passes and ends in exactly the cells of the exact segment, and the scan marks the map as the exact points say: hits for the cells of the exact ends, misses for the others met, everything else unchanged. In particular a raw cloud moved by a pose in f32 leaves the map of the points moved by that pose in exact arithmetic, as long as the terms of a coordinate add up to at most 16384 cells in absolute value.", "quantifier": "all rays in 2-D and 3-D of up to 1023 cells on each axis, coordinates up to 2^15 cells from the origin, resolutions from 2^-30 to 2^30; all scans of such rays into all maps the program can reach; all transformation matrices and clouds of moderate entries", "why_tests_cant": "The claim compares the result of thousands of rounded operations with exact real geometry for every perturbation of the points within the bound; a test sees one perturbation and has no exact reference.", "anchors": ["src/ray_caster.rs cast_ray", "src/map/lidar_noise_model.rs:116-150 integrate_point_cloud", "src/geom/point_cloud.rs transform"]}
{"id": "C96", "title": "The map of a recording is that of the world it was taken in", "statement": "Let scans be taken with the sensor and the points at exact real positions in a world whose cell w is centred at w times the resolution, all beams clear of corners, borders (at the ends) and the length limit by an eighth of a cell. Let them be recorded in f32 with each coordinate off by at most a 128th of a cell and integrated one after the other into a new map. Then for every cell of the world each scan says exactly one thing (hit: a beam that arrives ends in it; miss: a beam passes it and none hits it; nothing), the map holds for the cell the value that these observations give one after the other starting from 0, and every cell that was observed lies in the map. So two recordings of the same scans leave the same value in every cell of the world whatever the rounding, the tile size and the order of iteration of the sets. The next scan is taken, rather than stopped by a panic, exactly if all cells it hits or passes lie in the grown map, for which it is enough that the cells of the sensor and the points do.", "quantifier": "all sequences of recorded scans of any length into 2-D and 3-D maps with interleaved tracking changes and clears; rays of up to 1023 cells on each axis, coordinates up to 2^15 cells from the origin, resolutions from 2^-30 to 2^30", "why_tests_cant": "The claim ties the final map of an unbounded run of rounded operations to exact real geometry in a fixed world frame, for every rounding of the input within the bound and every cell, while the frame of the stored array moves with each growth; a test sees one run and has no exact reference.", "anchors": ["src/map/lidar_noise_model.rs:116-150 integrate_point_cloud", "src/map/occupancy_grid_map.rs integrate_point_cloud", "src/map/grid_map.rs expand_bounds", "src/ray_caster.rs cast_rays"]}
{"id": "C97", "title": "The occupied cells are the walls that were hit", "statement": "Let a world have walls (any set of cells), and let scans as in C96 be taken in it: no beam passes a wall, and a beam that arrives ends at one. Then every wall holds the value of as many hits as there are scans that hit it, and every other cell the value of as many misses as there are scans that pass it, so the order of the scans does not matter. If one hit exceeds the threshold, which is not negative, a cell of the map is occupied exactly if some scan hits it, and then it is a wall: no free cell is ever shown as occupied and no wall that was seen is lost. If the world changes, enough scans of the new one put the map right whatever was scanned before: with the default probabilities nine scans that pass a cell or three that hit it, and there one hit does exceed the threshold.", "quantifier": "all sets of walls, all sequences of recorded scans of any length as in C96, all cells of the world, all noise models with the stated signs; for the default model all logarithms accurate to 2^-22", "why_tests_cant": "It is about all worlds, all trajectories through them and all numbers of scans; a test maps one scene.", "anchors": ["src/map/lidar_noise_model.rs:64-96 integrate_hit, integrate_miss", "src/map/lidar_noise_model.rs:116-154 integrate_point_cloud, occupied", "src/map/occupancy_grid_map.rs"]}
{"id": "C98", "title": "The visualiser shows the walls that were hit, and nothing else", "statement": "Let a recording be taken in a world with walls (C97), frame by frame at known places up to a 128th of a cell. Then in every interleaving of the threads, at every time, a cell of the map is occupied exactly if one of the frames integrated so far hits it, and then it is a wall. If moreover the scheduler is fair and no frame reaches below the first, the display shows from some time on exactly the walls that some frame hits: all of them, no other cell, none twice, each at its place. With the default parameters this holds from the files on: the scans are the points of the files, turned and shifted in exact arithmetic, for drives within 25 m of the start and points within 25 m of the sensor.", "quantifier": "all sets of walls, all recordings of any length in range (C69) whose beams are clear of corners, borders and the range limit, all cells of the world, all interleavings and all times; for the display all fair executions; for files all contents of this kind", "why_tests_cant": "It is about all worlds, all recordings, all interleavings and all future times; a test watches one recording for a while.", "anchors": ["viz/src/bin/draw_occupancy_grid.rs", "src/map/occupancy_grid_map.rs", "src/map/lidar_noise_model.rs:116-154 integrate_point_cloud, occupied"]}
{"id": "C99", "title": "A sensor without a length limit", "statement": "A limit of 0, a negative one or NaN means that there is none. Then C96 and C97 hold with every beam arriving: a scan hits the cells its points lie in and passes the other cells that the segments to them meet, the map holds the values of these observations in turn whatever the rounding, the tile size and the order of iteration, the next scan is taken exactly if these cells lie in the grown map, the occupied cells are the walls that were hit, and a change of the world is picked up after enough scans. A positive limit that no beam reaches leaves the same values as none.", "quantifier": "all sequences of recorded scans of any length as in C96, all limits that are not positive; all cells of the world, all sets of walls", "why_tests_cant": "It is about every limit that is not positive, all worlds and all recordings; the tests of the repository all use a positive limit.", "anchors": ["src/ray_caster.rs:56-138 cast_ray", "src/map/lidar_noise_model.rs:116-154 integrate_point_cloud, occupied", "src/map/occupancy_grid_map.rs"]}
{"id": "C100", "title": "A drive in real numbers, stored in f32, is mapped", "statement": "Let the sensor and the points of each scan be real numbers, within 16000 cells of zero and 1022 cells of the sensor, the beams clear of corners, borders and the limit, with room for rounding at the borders of the box. If every coordinate is stored as the nearest f32, then integrating the scans one after the other into a new map neither panics nor fails to end, whatever the order of iteration, and the map holds for every cell of the world the values of the observations of the exact scans. In a world with walls the occupied cells are the walls that were hit; with the default model, resolution and tile size too. A sensor without a length limit (a limit of 0, a negative one or NaN) gives the map in which every beam arrives. Neither the order of the scans nor the tile size changes the values, and with the default model nine scans that pass a cell or three that hit it put the map right whatever came before. Every such scan can be stored. Of a point too near a border the stored number can lie in the next cell; then the map shows the hit there.", "quantifier": "all sequences of scans of any length, all points in real numbers as described, 2 and 3 dimensions, resolutions from 2^-30 to 2^30, tile sizes to 8192, all orders of iteration; all cells of the world, all sets of walls", "why_tests_cant": "It is about real numbers of which f32s are only approximations, and about all of them; no test can hold a number that is not an f32.", "anchors": ["src/map/occupancy_grid_map.rs", "src/map/lidar_noise_model.rs:116-154 integrate_point_cloud, occupied", "src/map/grid_map.rs expand_bounds", "src/geom/point_cloud.rs bounds", "src/ray_caster.rs:56-138 cast_ray"]}
