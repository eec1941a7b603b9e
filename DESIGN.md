# Formal model of rskgk/kuba in Rocq (Coq 8.16.1)

The model and proofs are in `rocq/theories` (logical name `Verif`). Build:
`cd rocq && coq_makefile -f _CoqProject -o Makefile && make -j4`.

## 1. Approach

* **Floats.** `f32` is Flocq's `binary_float 24 128` (`IEEE754.BinarySingleNaN`). Every arithmetic
  operation of the Rust code is the corresponding correctly rounded operation (nearest, ties to
  even), with NaN, infinities, signed zeros and subnormals. Only NaN payloads are forgotten. `f64`
  (OXTS reader) is `binary_float 53 1024`. Nothing is an idealised real unless a theorem says
  "exact arithmetic".
* **Integers.** `isize`/`usize` are `Z` with explicit range checks. Overflow is a panic (the dev
  profile, which is what `cargo test` and `cargo run` use). `as isize` of a float saturates and
  maps NaN to 0, as since Rust 1.45. The transmute of a cell to an array index is `mod 2^64`.
* **Panics and loops.** A computation is `Ret v`, `Panic` or `NoFuel`. The only unbounded loop,
  that of `cast_ray`, takes fuel; `NoFuel` means "has not returned within this many iterations".
  Returning is `exists fuel, ... = Ret _`; not returning is `forall fuel, ... = NoFuel`.
* **One program, two arithmetics.** `math.rs`, the converter and the ray caster are written once
  over a record of operations (`Arith.v`) and instantiated with `f32` and with the reals extended
  with +infinity. Theorems about exact arithmetic (C02, C04, C19, C34) and about f32 are therefore
  about the same text.
* **Data.** Points and cells are lists; the Rust type fixes their length, so theorems carry
  `length = d`. An `ndarray` is a shape and a flat row-major list. A `HashSet` is a duplicate-free
  list, and the order in which it is iterated is an arbitrary permuting function passed as an
  argument (C42 shows that the order does not matter).
* **What the platform provides** is an argument: `ln`, `exp`, `cos`, the two float parsers, the
  Euler-angle rotation, the byte order, the order of directory entries, the contents of files, the
  scheduler. Theorems hold for all of them, under stated conditions on `ln`/`cos` where needed.
  C87 and C91 fix the parsers to a model of `str::parse` (Number.v).
* **Statements are independent of the model.** `Spec*.v` define the notions used in the theorems
  (`covers_cells`, `reachable`, `history`, `observed`, `in_open_cell`, `reaches`, ...). Only `Props*.v`
  contain property theorems. Each is closed by `exact lemma`, followed by `Print Assumptions`, and
  by an `Example` showing a concrete case that meets the hypotheses.
* **The repository's own tests** are re-run on the model in `RepoTests.v` (computed by the kernel),
  as a check that the model computes what the code computes.
* **Wrong programs.** `seeded/LOG.jsonl` records edits to the model that imitate realistic bugs,
  the claims they break and which theorems stopped proving. Where a theorem survived although its
  claim was false of the edited program, the theorem was tightened.

## 2. Findings

The model disproves the following claims, each a documented or evident intention of the code.

| property | what happens |
|---|---|
| C08 | "points on a boundary go to the higher cell" fails below the offset: rounding is away from zero, so -0.5 goes to cell -1. |
| C13 | `enclosing` ignores an empty first box but not an empty second one. |
| C14 | `overlapping` returns the empty box at the origin, which need not lie in either argument. |
| C25 | after `expand_bounds` the cell of a requested point may be one past the end. |
| C27 | a map built over a box that is not tile aligned may panic when expanded: whenever there are more cells between the rounded corners than the rounded size of the box. |
| C74 | in the opposite case (fewer cells between the rounded corners than the rounded size) expanding succeeds but the last row or column of values is silently dropped. |
| C33 | `cast_ray` does not return for some inputs: the accumulated `t_max` makes it miss the end cell; a positive limit does not help when the squared length overflows. |
| C40 | without the sign condition on hits a value can leave the clamping limits. |
| C46 | a reported cell index denotes another place after the map has grown towards negative coordinates. |
| C47 | `integrate_point_cloud` panics for a point near the upper border of the map for a sensor outside the box of the points, and for a beam that ends exactly on a cell border: the ray misses its end cell and walks out of the map. |
| C52 | the east displacement is scaled with the cosine of the *difference* of latitudes. |
| C54 | without zero padding "10" is listed before "2". |
| C56 | a file name that is not UTF-8 panics, but only when progress is printed. |
| C59 | when the map's lower corner moves, a cell that is not occupied is displayed. |
| C72 | the unused `_resized_ndarray2/3` panics for boxes of whole cells far from zero, smears values for boxes off the grid, and loses all values for cells smaller than `f32::EPSILON`. |
| C82 | a ray so short that the square of its length underflows to zero has no direction (0/0) and walks down the second axis. |
| C83 | the marker is drawn at the pose of the next scan: `index` is advanced before drawing. |
| C86 | the axes are not alike: where borders of two axes are crossed at the same place the later axis goes first, and exchanging the first and the third axis changes the path of a ray because the squares are added from the left. |
| C87 | a record of exactly six numbers and a line break is refused; a first record with latitude `nan` is accepted and makes all later northward positions NaN. |
| C88 | with cells of 0.1 growth has an influence on later scans: after the corner has moved by four cells the ray from (0,0) to (0.05,0.25) no longer reaches its end, leaves the map and the program panics. |
| C89 | whether a scan is taken depends on where the world's origin is: the sensor at (0,0) and a point at (3,3) are taken by a new map, the same moved to (-10,-10) and (-7,-7) is not. The map is made to contain the point and the origin, not the sensor. |
| C90 | the ray from (0,0) to (1,1) passes through (0,1), the ray back through (1,0); and the ray from (0,0) to (3, 3-2^-22), which meets no corner, passes through (1,2), the ray back through (2,1) instead. |

## 3. Per property

Every row names the file with the model (M), where the statement's notions are defined (S), and
where the proof is (P), and how it goes. "Range" states numeric limits that the statement needs.

| property | status | model (M) | notions (S) | proof (P) | method and range |
|---|---|---|---|---|---|
| C01 | proved | Geom | - | MathProofs | case analysis on the float |
| C02 | proved | Geom, real instance | - | MathProofs | algebra of `ln` and `exp`, monotonicity of both |
| C03 | proved | Geom | Spec `ln_special`, `ln_monotone` | MathProofs | case analysis on the float operations; the logarithm is arbitrary |
| C04 | proved | Geom, real instance | - | MathProofs | algebra |
| C05 | proved | Geom | Spec `res_ok`, `within_cells` | RoundError, ConverterProofs | relative error of each rounded operation, sum below half a cell. Range: resolution 2^-100..2^100, cells and offsets within 2^20 |
| C06 | proved | Geom | Spec | ConverterProofs | same error analysis; `C06_centre` includes the rounding of `point_from_cell`. Range: as stated in the theorems |
| C07 | proved | Geom | Spec | ConverterProofs | every rounded operation is monotone on non-NaN floats ordered by an embedding in the reals; NaN and infinite cases apart |
| C08 | partial | Geom | Spec | ConverterProofs, BoundaryProofs, Examples | refuted by a computed witness; `C08_boundary` gives the true rule (away from the offset) where the subtraction is exact, `C08_either` the two possible cells where it is not |
| C09 | proved | Geom | Spec | ConverterProofs | case analysis; `C09_total` gives the index in every case |
| C10 | proved | Geom | Spec `fle` | GeomProofs | list induction |
| C11 | proved | Geom | Spec `tile_below`, `tile_above` | GeomProofs | `Z.quot`/`Z.rem` arithmetic; least and idempotent derived from the characterisation |
| C12 | proved | Geom | Spec, SpecMap: `on_grid`, `next_corner` | BoundsProofs, AlignProofs | `floor(v/r)*r <= v` in floats: monotonicity of rounding with an exactly representable comparison value; infinities apart; alignment by bounds on the rounding errors of quotient and product |
| C13 | proved | Geom | Spec | GeomProofs | order reasoning on floats |
| C14 | proved | Geom | Spec | BoundsProofs | order reasoning; the tolerance of `relative_eq` bounded in reals |
| C15 | proved | Geom | Spec | BoundsProofs | C05 for both corners and for their difference. Range: 2^20 cells |
| C16 | proved | Geom | - | ConverterProofs | list induction |
| C17 | proved | Geom | - | CloudProofs | list induction on columns |
| C18 | proved | Geom | Spec | CloudProofs | fold invariant; NaN never wins a comparison |
| C19 | proved | Geom, both instances | Spec `rigid` | CloudProofs | columns independently; real algebra for rigid maps |
| C20 | proved | NdArray, GridMap | SpecMap `storage_ok` | NdProofs, GridProofs | row-major offsets are injective in range |
| C21 | proved | NdArray, GridMap | SpecMap `in_range` | GridProofs | a negative coordinate becomes at least 2^63 after the cast, beyond every extent |
| C22 | proved | GridMap | SpecMap | GridProofs, MapProofs | shape from the converter on aligned corners (C15) |
| C23 | proved | GridMap | SpecMap `reachable`, `covers_cells` | ExpandProofs, MapProofs | invariant: bounds are the exact images of tile-aligned cell corners; `slice`/`assign` move each value by the difference of corners. Range: tile <= 2^17, requests within 2^18 cells of zero |
| C24 | proved | GridMap | SpecMap `history` | ExpandProofs, MapProofs | refinement to a map from world cells to values over all histories; C24_cells gives the cells of the grown map from the requested corners alone (one rounding per operation against a fifth of a cell) |
| C25 | partial | GridMap | SpecMap | MapProofs, AlignProofs, ExamplesMap | refuted by computation; positive part by error analysis of the index |
| C26 | proved | GridMap | SpecMap | MapProofs | rounding out of a covered box gives the same cell corners |
| C27 | partial | GridMap | SpecMap `built`, `cells_between`, SpecBuilt | MapProofs, UnalignedProofs, BuiltProofs, BuiltReal, ExamplesMap, ExamplesBuilt | refuted by computation; exact condition by following the slices: the target slice always fits, the source slice is rounded corner to rounded corner and may exceed the storage |
| C28 | proved | GridMap | SpecMap `near_cell` | MapProofs | C05 with the map corner as offset |
| C29 | proved | RayCaster | Spec `connected`, `one_step` | RayProofs, CastProofs | induction over loop iterations |
| C30 | proved | RayCaster | Spec | CastProofs | the loop is not entered |
| C31 | proved | RayCaster | Spec | CastProofs | each axis moves monotonically, so reaching the end fixes the number of steps |
| C32 | proved | RayCaster | Spec | CastProofs | simulation between the limited and unlimited loop |
| C33 | partial | RayCaster | Spec | ExamplesRay | refuted: loop invariants show that the end cell is never met; positive part from C62 in RayReach, IntegrateRange; the dichotomy in CastProofs from C31 and the fact that a step of the loop adds one cell |
| C34 | proved | RayCaster, real instance | Spec `in_closed_cell`, `in_open_cell`, `seg` | IdealRay | invariant: `t_max` of an axis is the parameter at which the segment leaves the current cell on that axis; merge of the crossing times |
| C35 | proved | RayCaster | Spec `ray_range` | RayRange | float invariants: only one axis has a finite `t_max` |
| C36 | proved | RayCaster | Spec | RaysProofs | list induction over the points |
| C37 | proved | RayCaster | Spec | RaysProofs | from the set characterisation of C36 |
| C38 | proved | RayCaster | Spec `ray_range` | RayRange | each step increases one distance; error bounds on the distance test |
| C39 | proved | NoiseModel | SpecNoise `probability` | NoiseProofs | case analysis |
| C40 | proved | NoiseModel | SpecNoise `signs_ok`, `integrated` | NoiseProofs | invariant on all stored values |
| C41 | proved | NoiseModel | SpecNoise `observed` | NoiseProofs | C36 (disjoint sets) and C20; places via C23; histories by induction |
| C42 | proved | NoiseModel | SpecNoise `is_order`, `same_outcome` | NoiseProofs | updates of different cells commute |
| C43 | proved | NoiseModel | SpecNoise | NoiseProofs | `f32::min/max` drop a NaN operand |
| C44 | proved | NoiseModel | Spec `fle` | NoiseProofs | rounded addition of a non-negative number does not decrease |
| C45 | proved | NoiseModel, GridMap | SpecMap | NoiseProofs | from C41 |
| C46 | partial | NoiseModel | SpecNoise | NoiseProofs, IndexProofs, ExamplesNoise | refuted by a computed history; positive part from C24; exact part: cell numbers shift with the lower corner |
| C47 | partial | NoiseModel | SpecNoise `axis_safe` | NoiseProofs, ExamplesNoise | refuted by computation; positive part: path cells lie between two cells of the map; rays reach their ends by C62 (IntegrateRange) |
| C48 | proved | Kitti | SpecKitti | KittiProofs | list induction over records, both byte orders |
| C49 | proved | Kitti | SpecKitti | KittiProofs | C48 on encoded words |
| C50 | proved | Kitti | SpecKitti `utf8_encode`, `is_text` | OxtProofs | the validator accepts exactly the concatenations of encodings of scalar values |
| C51 | proved | Kitti | SpecKitti | OxtProofs, DirProofs | fold over the listing |
| C52 | partial | Kitti, F64 | SpecKitti | GpsProofs | correctly rounded f64 operations; refutation for every `cos` with cos 0 = 1 |
| C53 | proved | Kitti | SpecKitti | DirProofs | stable sort of distinct names is determined by the set |
| C54 | proved | Kitti | SpecKitti | DirProofs | byte order on equal-length numerals |
| C55 | proved | Kitti | SpecKitti | DirProofs | induction over the lazy chain, with the log of opened files |
| C56 | partial | Kitti | SpecKitti | DirProofs | refuted by a name that is not UTF-8; otherwise induction over the files opened |
| C57 | proved | Viz | SpecViz | VizProofs | invariant over all runs relating program counters, mutex owners and the flag |
| C58 | proved | Viz | SpecViz | VizProofs | same invariant; the trace is a word of a regular pattern |
| C59 | proved | Viz | SpecViz `corner_kept` | VizProofs, MainProofs, ExamplesViz | invariant: the display agrees with the map outside the not yet consumed cells; refuted without the proviso |
| C60 | proved | Viz | SpecViz | VizProofs | after the poisoning the flag stays false |
| C61 | proved | Viz | SpecViz | VizProofs, MainProofs | counting started workers |
| C62 | proved | RayCaster | Spec `ray_short`, `end_clear`, `in_grown_cell`, `seg` | RayReach | the invariant of C34 with error terms: `t_max` of an axis times the speed on that axis is the distance to the next border up to a bound growing with the number of steps |
| C63 | proved | RayCaster | Spec `dist`, `cell_centre`, `in_grown_cell` | RayLimit | C62 cut at the first cell beyond the limit (C32); error bound on the distance test; path cells lie between the first cell and any later one |
| C64 | proved | NoiseModel, RayCaster, GridMap | Spec `seg`, `dist`; SpecMap `covers_cells`, `in_box`; SpecNoise `near_world`, `in_limit`, `world_value`, `evidence` | ScanProofs | C41 places, C36 sets, C62/C63 single beams; the lower corner of the map is a whole number of cells up to rounding (C23), so cells of the map are cells of the world |
| C65 | proved | NoiseModel, RayCaster, GridMap | SpecNoise `scanned`, `scan_ok`, `says`, `observe` | ScanProofs | induction over the scans with C64; the covered boxes are unique and grow |
| C66 | proved | NoiseModel, RayCaster, GridMap | SpecNoise `scanned`, `says` | ScanProofs | C65 and monotonicity of the evidence (C44) |
| C67 | proved | Geom, f32 instance | Spec `near_affine`, `near_rigid` | TransformProofs | error of each product and sum, then the triangle inequality for norms |
| C68 | proved | Geom, F32 | Spec `within_rel` | ApproxProofs | coordinatewise; monotone rounding gives completeness |
| C69 | proved | Viz, NoiseModel, GridMap, RayCaster | SpecViz `recording_ok`, `execution`, `fair`, `first_lowest`; SpecNoise `says` | ProgramProofs, LiveProofs, CornerProofs | invariant: the map is `scanned` and its box stays within 2^14+2+tile cells, so each frame is in the range of C65; liveness by a decreasing measure per thread; settling from C66; an alternating scheduler gives a fair execution |
| C70 | proved | Pose, Geom, both instances | SpecPose `turned`, `trig_accurate`, `near3`; Spec `near_rigid` | PoseProofs | half-angle identities in the reals; rounding error of each entry of quaternion and matrix; C67 for the distances |
| C71 | proved | Pose, Kitti, Viz | SpecMain `drive`, `position`, `in_name_order`; SpecPose | StartProofs | case analysis of main with the reader theorems (C48, C50, C51, C53, C55); the spawn invariant of C61; C70 |
| C72 | proved | Resize, NdArray, Geom | SpecMap `in_box`, `cb_near`, `reachable` | ResizeProofs | the overlap of boxes of whole cells is the box of whole cells common to both (one cell exceeds the tolerance); slices of equal size; C24 for the comparison with expand_bounds; witnesses by computation |
| C73 | proved | Pose, Kitti, Viz, NoiseModel, GridMap, RayCaster | SpecMain `scene_of`, `measured`, `scene_clear`, `scene_says` | SceneProofs | C71_placed puts every point within a sixteenth of a cell of its exact place; the margins of the scene then give those of C69, and the scene says what the scan says |
| C74 | partial | GridMap | SpecMap `built`, `cells_between`, `covers_cells` | UnalignedProofs, BuiltProofs, ExamplesMap | refuted by computation; positive part: slice assignment of a part of the source |
| C75 | proved | NoiseModel, RayCaster, GridMap | SpecNoise `scanned`, `says`, `seen`, `counts`, `moderate_model`; SpecOdds `ln_accurate` | ForgetProofs, ExamplesForget | C65 gives the value as the evidence added up; every rounded addition of evidence that counts moves the value by the evidence up to a thousandth; the default numbers from C76 and powers of rationals, e.g. 1.49^9 > 33.6 |
| C76 | proved | Geom (math.rs) | SpecOdds | OddsProofs | relative rounding errors of subtraction, division and addition; ln(1+e) and e^d - 1 bounded by the inequality 1 + x <= e^x |
| C77 | proved | NoiseModel, RayCaster, GridMap, Viz | SpecNoise `replayed`, `addable`, `reads_same`; SpecViz | SettleProofs, ExamplesSettle | one round acts on each cell as a monotone function of its value (rounded addition and clamping are monotone), so the values after whole rounds are monotone, and by the pigeonhole principle over the 2^32 bit patterns constant from some time on; the box does not change after the first round |
| C78 | proved | NoiseModel, RayCaster, GridMap | SpecNoise `scanned`, `says`, `seen`, `added_up`, `slack`, `unlimited` | OrderProofs, ExamplesOrder | C65 gives the value as a fold of rounded additions; each rounding is at most 2^-24 of a number between the limits and does not cross a limit, which is itself a float; the counts do not depend on the order; the default numbers from C76 |
| C79 | proved | RayCaster, Geom | SpecRay `first_crossing`, `spacing`, `crossing`, `before`, `on_the_way`, `passes`, `well_timed` | MergeProofs, ExamplesMerge | the loop is a walk that always takes the axis whose border is before all others; rounded addition of a spacing is monotone, so a cell is ahead before a step exactly if it is ahead after it or is the present cell |
| C80 | proved | RayCaster, NoiseModel, GridMap | SpecRay `timely`, `ends_ray`, `passes`; SpecMap, SpecNoise | ReturnProofs, ExamplesReturn | the walk of C79 never stands still before a cell that ends it; the updates succeed exactly if every cell of the two sets is in the map, and the sets are those of the rays (C36) |
| C81 | proved | RayCaster, NoiseModel, GridMap | SpecRay `stops_at`, `crosses`; SpecMap, SpecNoise | ReturnProofs, ExamplesReturn | the first cell on the way that ends the ray is unique (C79, C80); the two sets are those of the rays (C36); the updates place by place are C41, the reports C45 |
| C82 | proved | RayCaster, Geom | SpecRay `mirrored`, `mirrored_cell`, `mirrored_ray`; Spec `direction` | MirrorProofs, ExamplesMirror | rounding to nearest does not see the sign, so every operation commutes with the change of sign up to the sign of zero, which no comparison sees; the loop by induction |
| C83 | proved | Draw, Pose, Viz | SpecDraw `marks`, `drawn_line`; SpecPose `turned`, `near3`; SpecMain `drive` | DrawProofs, ExamplesDraw | in exact arithmetic the quaternion turns like the product of the three rotations; rounding errors added up operation by operation; the origin is turned to a zero of either sign; the index by the invariant of C61 |
| C84 | proved | Geom, GridMap, RayCaster, NoiseModel | SpecScale `rescaled`, `rescaled_map`, `alike`, `built` | ScaleFacts, ScaleProofs, ScaleMapProofs, ExamplesScale | every intermediate value of the one run is 2^k, 1 or 2^-k times that of the other, and neither underflows nor overflows: operation by operation, with bounds on exponents; crossing times far beyond the end may differ but compare alike |
| C85 | proved | GridMap, NoiseModel, Viz | SpecExtent `grown`, `hull`, `box_cells`, `between` | ExtentProofs, ExamplesExtent | invariant over the requests: on every axis the lower corner is the tile of the least lower cell asked for so far and the upper corner the tile of the greatest upper one; rounding out to tiles commutes with taking the minimum; cells asked for are monotone in the coordinate |
| C86 | proved | RayCaster, GridMap, NoiseModel | SpecSwap `swapped`, `swapped_map`, `untied` | SwapProofs, SwapMapProofs, ExamplesSwap | the loop invariant of a ray carries that all later crossings of the two axes differ, so that the exchanged comparison picks the exchanged axis; addition of the two squares commutes; maps through the world cells they cover; the exchanged map of a tile-aligned map covers the exchanged cells, and contents are compared cell by cell |
| C87 | proved | Number, Kitti | SpecNumber `number_text`, `spells`, `rounds_to`, `gives` | NumberProofs, NumberRoundProofs, NumberReadProofs, ExamplesNumber | the parser is shown to accept exactly the grammar and to yield an exact fraction; rounding of a fraction is the division of two integers of any size with one rounding; the threshold of overflow from the tie between the largest number and the next power of two; read back by comparing with the midpoints to the neighbours; positions by adding the errors of reading to those of C52 |
| C88 | proved | RayCaster, GridMap, NoiseModel | SpecShift `shifted`, `moved_down`, `units`, `same_world` | ShiftProofs, ShiftFloatProofs, MoveFloatProofs, ShiftMapProofs, ShiftGrowProofs, ExamplesShift | the loop is run from both corners in step; in f32 all differences to the corners are exact and the rounded quotient has the same nearest integer, so the first crossings and the lengths are the same numbers; scans and maps cell by cell; growing by the contents of C24 |
| C89 | proved | RayCaster, GridMap, NoiseModel | SpecMove `moved_by`, `moved_scan`, `moved_history`, `same_elsewhere` | MoveFloatProofs, MoveProofs, MoveMapProofs, ExamplesMove | exact arithmetic by induction on the loop; f32 by the same lemma as C88 (points moved and the corner moved by another number of cells); maps by induction on the scans: both grow without changing what they say, the sets of cells of the scans are the same but for a shift, and each cell is written to from the same value |
| C90 | proved | RayCaster | SpecBack `on_border`, `no_corner`, `no_corner_near` | IdealRay, BackProofs, SameProofs, ExamplesBack, ExamplesSame | every cell of an exact ray is touched by the segment, lies between the ends and has a given number of steps left; without corners there is only one such cell for each number, and the conditions are the same both ways. For f32 the same with cells grown by a sixteenth, which the segment touches by C62 |
| C91 | proved | Number, Kitti, Pose, Viz and all they use | SpecText `drive_text`, `metres`, `scene_said`, `reasonable`, `near_scene` | TextProofs, ExamplesText | the numbers in the texts are read with errors of half a unit in the last place (C87), which moves the vehicle by less than 2^-14 m and the points by less than 2^-10 m; the rest is C73 for the scenes of the numbers read |
| C92 | proved | RayCaster with f32 and with real numbers | SpecBack `off_borders`, `no_corner_near`, `limit_clear`, `clear_ray` | SameProofs, LimitSameProofs, ExamplesSame | the cell of each number of steps left is unique away from corners (as C90); the cell of the f32 ray touches the segment when grown by a sixteenth (C62), that of the exact ray without growing (C34); the limit cuts both at the first cell that is too far (C32), and the tests agree away from the limit (C63) |
| C93 | proved | NoiseModel, RayCaster, GridMap | none of its own | SplitProofs, ExamplesSplit | the sets of free and occupied cells of the whole are those of the parts (C36), every part fits where the whole fits because rounding out is monotone (C85), and each integration writes exactly its sets (C41) |
| C94 | proved | RayCaster, NoiseModel, GridMap | SpecMeet `meets`, `too_long`, `beam_passes`, `beam_arrives`; SpecBack `clear_ray` | MeetProofs, MeetMapProofs, ExamplesMeet | a cell that the segment meets lies between the cells of the ends, and away from corners there is one such cell for each number of steps (C90); the exact ray has a met cell for each number (C34), the f32 ray is the exact ray (C92); then C41 for the map |
| C95 | proved | RayCaster, NoiseModel, GridMap, Geom | SpecNear `off_by_cells`, `clear_segment`; SpecMeet; Spec `affine`, `affine_size` | NearProofs, NearMapProofs, ExamplesNear | a segment near a clear segment is clear with half the margin and meets the same cells, because for each number of steps each of the two meets just one cell and both lie near the exact segment (C90); distances move by less than the margin; then C94, and C67 for the error of the transformation |
| C96 | proved | RayCaster, NoiseModel, GridMap, Geom | SpecWorld `world`, `scan_hits`, `scan_passes`, `verdict`, `records`, `recorded`; SpecNear; SpecMeet | WorldProofs, WorldMapProofs, ExamplesWorld | the lower corner of the map is a world cell up to a 256th of a cell (C24), so moving the exact scan by that offset makes it a scan in the frame of the map that is off by less than a 64th of a cell (C95) and moves cell numbers by a whole vector; then C94 for the sets of cells and C23 for growth, by induction over the recording |
| C97 | proved | NoiseModel, RayCaster, GridMap, Geom | SpecWall `sees`, `after`; SpecWorld; SpecNoise `seen`, `counts`, `signs_ok` | WallProofs, ExamplesWall | in a world with walls all verdicts about a cell are of one kind (C96), so its value is an iteration of one kind of evidence and permuting the scans keeps the number; monotonicity of the evidence (C66) and the drift per scan (C75) give the state |
| C98 | proved | Viz, Kitti, Pose, NoiseModel, RayCaster, GridMap, Geom | SpecTour `taken_at`, `tour_hits`, `near_start`; SpecWall `sees`; SpecViz; SpecMain | TourProofs, TourFileProofs, ExamplesTour | the map of any reachable state is that of the frames in turn (C69), which are recordings of the exact scans, so C97 gives the occupied cells; the display agrees with the map whenever the reports are consumed, which happens again and again (C69), and the corner of the map stays |
| C99 | proved | NoiseModel, RayCaster, GridMap, Geom | SpecFull `full_records`, `full_recorded`, `full_verdict`, `full_sees`, `with_limit`; SpecWorld; SpecNoise | FullProofs, ExamplesFull | rays of at most 1023 cells per axis never come near a limit of 2^20 cells, so integrating without a limit equals integrating with that one, for which C96 and C97 apply; there every beam arrives |
| C100 | proved | NoiseModel, GridMap, RayCaster, Geom, NdArray | SpecDrive `nearest32`, `stored`, `has_room`, `in_reach`, `map_frames`, `driven`; SpecWorld; SpecWall | DriveProofs, ExamplesDrive | rounding moves a coordinate by at most a 1024th of a cell and keeps the order of coordinates, so the stored frames meet `frame_ok` and every integration succeeds; the frames record the exact scans in the sense of C96, or of C99 if there is no limit, whose lemmas give the map |

No property had to be left out as inexpressible. The parts of properties that are not expressible
in the model are listed in section 5.

## 4. Threads (C57-C61, C69)

`Viz.v` is a labelled transition system. One step is one action of one thread: a load or store of
the flag, a lock or unlock, one critical-section operation, spawning, drawing. A state holds the
program counter of the render thread, the list of all workers ever spawned with theirs, the two
mutexes with owner and poison bit, and the shared data. `run` is the set of all finite
interleavings, so the theorems quantify over every schedule. C69 also speaks of infinite executions:
functions from step numbers to states, moving threads and observations. They are fair if every
thread that can move from some time on for ever does move again (weak fairness). With Relaxed
ordering this includes that a store of the flag becomes visible eventually, which the Rust
reference only recommends ("in a finite period of time").

The flag is an `AtomicBool` used with `Ordering::Relaxed`. The model makes it sequentially
consistent. This loses no behaviour relevant here:

1. By coherence (one modification order per atomic object) the render thread, which stores `false`
   before spawning the k-th worker, can afterwards only read that `false` or the `true` stored by
   that worker. Stores of earlier workers are ordered before it: the render thread read them.
2. If it reads `false` it does nothing but draw. Reading a stale `false` is the same as the worker
   being slower, which is a schedule of the model.
3. If it reads `true`, it takes the mutexes `reports` and then `grid`. The worker's store of
   `true` comes after its critical section on `reports` and inside that on `grid`. Suppose the
   render thread's section on one mutex came before the worker's. Then render's load, which is
   before that section, would happen before the worker's store via the unlock/lock edge, and a load
   cannot read a store it happens before. So the worker's section comes first, and the data are
   synchronised by the mutex, not by the flag.
4. A worker that is blocked on a mutex has not executed its store, so `true` cannot be read from it.

Not part of the transition system: window events, failure of `thread::spawn`, and the
end of the process. After a panic of the render thread workers may still take steps.

## 5. Trusted base

* Coq's kernel (8.16.1), including its virtual machine (`vm_compute` is used for concrete
  computations), and the standard library and Flocq 4.1.0 as installed.
* The axioms that `Print Assumptions` lists. All are of the standard library:
  * S = `ClassicalDedekindReals.sig_not_dec`
  * F = `ClassicalDedekindReals.sig_forall_dec`
  * E = `FunctionalExtensionality.functional_extensionality_dep`
  * C = `Classical_Prop.classic`

  S, F and E come with the real numbers; C comes with Flocq's rounding lemmas. "closed" means
  "Closed under the global context".
* The faithfulness of the model, written by hand from the text at the pinned commit. Every
  definition cites file and lines. The following are modelled from knowledge of the dependencies,
  whose source is not in the repository:
  * approx 0.3.2 `relative_eq!` for `f32` with the default tolerances (epsilon = max_relative =
    `f32::EPSILON`): equal, or both finite and |a-b| <= epsilon or |a-b| <= max(|a|,|b|) * max_relative.
  * nalgebra 0.22: `norm`, matrix product accumulated column by column, column-major storage,
    `insert_row`, `remove_row`, `from_iterator` panicking when elements are missing;
    `UnitQuaternion::from_euler_angles`, `to_rotation_matrix` and `Isometry3::to_homogeneous`
    operation by operation (Pose.v), with sine and cosine as arguments; the product of a unit
    quaternion and a vector and `transform_point` (Draw.v).
  * ndarray 0.13: `from_shape_vec`, indexing panics, `slice` and `assign`.
  * byteorder `read_f32_into`; std: UTF-8 validation, `split`, `f32::max/min` ignoring a NaN, `f32::round`
    half away from zero, hash sets, mutex poisoning, `str::parse` for floats (only in C87 and C91: the grammar of
    Rust 1.55 and later and correct rounding as documented; exponents are not cut off at 65536).
  * IEEE semantics of `f32` on the target (no x87 excess precision, no flush to zero), default
    rounding mode.
* Panics by exhaustion of memory or of the stack and arithmetic overflow inside the dependencies
  are not modelled. `ndarray_with_bounds` of a huge box succeeds in the model.

### Which parts of the code are modelled

| file | modelled | not modelled |
|---|---|---|
| `src/math.rs` | all functions | |
| `src/geom/vector.rs` | `signum` | type aliases |
| `src/geom/point.rs`, `pose.rs` | types; the poses' matrix (Pose.v) | macros `point2!`, `point3!` |
| `src/geom/cell.rs` | type, `to_ndindex` | macros |
| `src/geom/converter.rs` | all functions | |
| `src/geom/bounds.rs` | `new`, `empty`, `from_size_cells(_n)`, `from_cell_bounds(_n)`, `discretized`, `enclosing`, `overlapping`, `==`, `abs_diff_eq`, `relative_eq` | macros (they build a box without the check of `new`) |
| `src/geom/cell_bounds.rs` | `new`, `empty`, `from_bounds`, `discretized`, `==` | macros |
| `src/geom/point_cloud.rs` | `from_points`, `points_iter`, `num_points`, `bounds`, `transform` | the raw `data` field as a public interface |
| `src/map/grid_map.rs` | `GridMapN` with all its methods in 2-D and 3-D, `ndarray_with_bounds`, `_resized_ndarray2/3` | trait declarations; the aliases `GridMap3i`/`GridMap3b` (they are 2-D) |
| `src/map/block_grid_map.rs` | | all (not part of the crate: `mod.rs` does not mention it) |
| `src/map/noise_model.rs` | | trait declaration only |
| `src/map/lidar_noise_model.rs` | all | |
| `src/map/occupancy_grid_map.rs` | `new`, `default`, `integrate_point_cloud`, `occupied`, delegation to the inner map | |
| `src/ray_caster.rs` | all | |
| `src/kitti/fs.rs` | `seq_files_in_dir` | |
| `src/kitti/point_cloud_reader.rs` | `read`, `read_from_dir` | `read_from_file` only as "open, then `read`"; text printed |
| `src/kitti/oxt_reader.rs` | `read`, `gps_to_meters`, `read_from_dir` | same; the float parsers are arbitrary functions except in C87 and C91; `from_euler_angles` is an arbitrary function in C50, C51 and C55 and modelled in Pose.v elsewhere |
| `viz/src/bin/draw_occupancy_grid.rs` | `main` up to the opening of the window; the worker, the flag, the mutexes, the consumption of reports, frame indices, the pairing and transformation of poses and clouds; the points and lines of a frame (Draw.v) | what kiss3d does with them, window, camera, text printed |

The generic parameters `D`/`NaD` are instantiated with 2 and 3, the only instances the code uses;
theorems say `(d = 2 \/ d = 3)` only where the code itself does and are otherwise for every d.

### Assumptions per theorem

| property | theorem: assumptions |
|---|---|
| C01 | `C01_signum_values`: CEFS, `C01_signum_vector`: CEFS |
| C02 | `C02_probability_of_logodds`: CEFS, `C02_logodds_of_probability`: CEFS, `C02_probability_in_range`: EFS, `C02_logodds_increasing`: CEFS, `C02_probability_increasing`: CEFS |
| C03 | `C03_logodds_special_values`: CEFS, `C03_logodds_monotone`: CEFS |
| C04 | `C04_bayes`: CEFS |
| C05 | `C05_round_trip`: CEFS, `C05_round_trip_per_axis`: CEFS, `C05_out_of_range_refuted`: CEFS |
| C06 | `C06_nearest_cell`: CEFS, `C06_nearest_cell_point`: CEFS, `C06_centre`: CEFS |
| C07 | `C07_monotone`: CEFS |
| C08 | `C08_boundary_refuted`: CEFS, `C08_boundary`: CEFS, `C08_grid`: CEFS, `C08_above_refuted`: CEFS, `C08_either`: CEFS |
| C09 | `C09_total`: CEFS, `C09_coordinates`: CEFS |
| C10 | `C10_bounds_new`: closed, `C10_bounds_new_panics`: closed, `C10_bounds_new_nan`: CEFS, `C10_cell_bounds_new`: closed, `C10_cell_bounds_new_panics`: closed |
| C11 | `C11_discretized`: closed, `C11_discretized_returns`: closed, `C11_discretized_least`: closed, `C11_discretized_idempotent`: closed, `C11_tile_size_zero`: closed, `C11_huge_tiles_refuted`: closed |
| C12 | `C12_discretized`: CEFS, `C12_aligned`: CEFS |
| C13 | `C13_enclosing`: CEFS, `C13_enclosing_of_empty`: closed, `C13_enclosing_symmetric_refuted`: CEFS |
| C14 | `C14_overlapping`: CEFS, `C14_clear_overlap`: CEFS, `C14_always_contained_refuted`: CEFS |
| C15 | `C15_round_trip`: CEFS, `C15_span`: CEFS, `C15_from_size`: CEFS, `C15_from_size_per_axis`: CEFS |
| C16 | `C16_point_from_cell_n`: CEFS, `C16_cell_from_point_n`: CEFS, `C16_from_cell_bounds_n`: CEFS, `C16_from_size_cells_n`: CEFS |
| C17 | `C17_points_kept`: closed |
| C18 | `C18_bounds`: CEFS |
| C19 | `C19_transform_points`: CEFS, `C19_identity`: CEFS, `C19_rigid_distance`: EFS, `C19_rigid_inverse`: EFS |
| C20 | `C20_set_then_get`: closed, `C20_last_write`: closed, `C20_new_storage`: CEFS |
| C21 | `C21_get`: closed, `C21_set`: closed, `C21_negative`: closed |
| C22 | `C22_new_uniform`: CEFS, `C22_new_iff`: CEFS, `C22_new_aligned`: CEFS, `C22_default`: CEFS, `C22_from_array`: closed |
| C23 | `C23_values_kept`: CEFS, `C23_cells_unique`: EF |
| C24 | `C24_expand`: CEFS, `C24_cells`: CEFS, `C24_reachable`: CEFS, `C24_history`: CEFS |
| C25 | `C25_room_refuted`: CEFS, `C25_room_partial`: CEFS, `C25_nearest_partial`: CEFS, `C25_which_points_partial`: CEFS |
| C26 | `C26_covered`: CEFS, `C26_repeated`: CEFS, `C26_well_inside`: CEFS |
| C27 | `C27_arbitrary_bounds_refuted`: CEFS, `C27_aligned_bounds_partial`: CEFS, `C27_condition_partial`: CEFS, `C27_can_be_built`: CEFS, `C27_fits_partial`: CEFS, `C27_panics_partial`: CEFS |
| C28 | `C28_round_trip`: CEFS, `C28_same_place`: CEFS |
| C29 | `C29_connected`: CEFS, `C29_toward_end`: CEFS |
| C30 | `C30_same_cell`: CEFS |
| C31 | `C31_completed`: CEFS |
| C32 | `C32_limited`: CEFS, `C32_prefix`: CEFS, `C32_unlimited`: CEFS, `C32_fuel_irrelevant`: CEFS |
| C33 | `C33_cast_ray_returns_refuted`: CEFS, `C33_limited_ray_returns_refuted`: CEFS, `C33_returns_partial`: CEFS, `C33_decided_partial`: CEFS, `C33_condition_partial`: CEFS |
| C34 | `C34_ideal_ray`: EFS |
| C35 | `C35_axis_aligned`: CEFS |
| C36 | `C36_free_and_occupied`: CEFS, `C36_returns`: CEFS, `C36_fails`: CEFS |
| C37 | `C37_order_irrelevant`: CEFS |
| C38 | `C38_limit_bounds_work`: CEFS |
| C39 | `C39_new`: CEFS, `C39_default`: CEFS |
| C40 | `C40_values_limited`: CEFS, `C40_default_signs`: CEFS, `C40_signs_needed`: CEFS |
| C41 | `C41_update`: CEFS, `C41_places`: CEFS, `C41_history`: CEFS |
| C42 | `C42_order`: CEFS |
| C43 | `C43_hit`: CEFS, `C43_miss`: CEFS, `C43_history`: CEFS |
| C44 | `C44_hits`: CEFS, `C44_misses`: CEFS, `C44_occupied`: CEFS |
| C45 | `C45_tracking`: CEFS, `C45_switches`: closed |
| C46 | `C46_index_refuted`: CEFS, `C46_index_partial`: CEFS, `C46_exactly_partial`: CEFS, `C46_points_partial`: CEFS |
| C47 | `C47_no_panic_refuted`: CEFS, `C47_sensor_outside_refuted`: CEFS, `C47_missed_end_refuted`: CEFS, `C47_no_panic_partial`: CEFS, `C47_in_range_partial`: CEFS, `C47_request`: CEFS |
| C48 | `C48_words`: closed, `C48_cloud`: CEFS, `C48_numbers`: CEFS, `C48_bits`: CEFS |
| C49 | `C49_round_trip`: CEFS |
| C50 | `C50_utf8`: closed, `C50_fields`: closed, `C50_accepts`: CEFS, `C50_errors`: CEFS, `C50_later_fields`: CEFS |
| C51 | `C51_record`: CEFS, `C51_directory`: CEFS |
| C52 | `C52_origin`: CEFS, `C52_north`: CEFS, `C52_up`: CEFS, `C52_east_refuted`: CEFS, `C52_east_computed`: CEFS, `C52_east_partial`: CEFS |
| C53 | `C53_listing`: closed, `C53_any_order`: closed |
| C54 | `C54_equal_length`: closed, `C54_names`: closed, `C54_other_length`: closed |
| C55 | `C55_clouds`: CEFS, `C55_poses`: CEFS |
| C56 | `C56_clouds_refuted`: CEFS, `C56_poses_refuted`: CEFS, `C56_clouds_partial`: CEFS, `C56_poses_partial`: CEFS, `C56_clouds_exactly_partial`: CEFS, `C56_poses_exactly_partial`: CEFS |
| C57 | `C57_no_deadlock`: CEFS, `C57_frames_keep_coming`: CEFS |
| C58 | `C58_one_worker_every_report`: CEFS |
| C59 | `C59_display`: CEFS, `C59_display_in_program`: CEFS, `C59_without_proviso_refuted`: CEFS |
| C60 | `C60_frozen_not_crashed`: CEFS |
| C61 | `C61_cyclic`: CEFS, `C61_no_frames`: CEFS, `C61_paired`: CEFS, `C61_lengths_checked`: CEFS |
| C62 | `C62_f32_ray`: CEFS |
| C63 | `C63_limited_f32_ray`: CEFS |
| C64 | `C64_scan`: CEFS |
| C65 | `C65_values`: CEFS, `C65_continues`: CEFS |
| C66 | `C66_static`: CEFS, `C66_default`: CEFS |
| C67 | `C67_transform_error`: CEFS, `C67_distances`: CEFS |
| C68 | `C68_relative_sym`: CEFS, `C68_abs_diff_sym`: CEFS, `C68_relative_refl`: CEFS, `C68_abs_diff_refl`: CEFS, `C68_eq_relative`: CEFS, `C68_default_tolerance`: CEFS, `C68_exact`: CEFS, `C68_not_transitive`: CEFS, `C68_special`: CEFS |
| C69 | `C69_never_panics`: CEFS, `C69_map`: CEFS, `C69_live`: CEFS, `C69_settles`: CEFS, `C69_displayed`: CEFS, `C69_in_program`: CEFS, `C69_fair_exists`: CEFS |
| C70 | `C70_exact`: EFS, `C70_matrix`: CEFS, `C70_distances`: CEFS |
| C71 | `C71_opens`: CEFS, `C71_ends`: CEFS, `C71_panics`: CEFS, `C71_drive_unique`: CEFS, `C71_started`: CEFS, `C71_placed`: CEFS |
| C72 | `C72_aligned`: CEFS, `C72_same_as_expand`: CEFS, `C72_any_distance_refuted`: CEFS, `C72_any_box_refuted`: CEFS, `C72_any_resolution_refuted`: CEFS |
| C73 | `C73_never_panics`: CEFS, `C73_displayed`: CEFS |
| C74 | `C74_keeps_values_refuted`: CEFS, `C74_between_corners_partial`: CEFS, `C74_kept_partial`: CEFS, `C74_lost_partial`: CEFS |
| C75 | `C75_forgets`: CEFS, `C75_default`: CEFS, `C75_default_needs`: CEFS |
| C76 | `C76_logodds`: CEFS, `C76_probability`: CEFS, `C76_roundtrip`: CEFS |
| C77 | `C77_settles`: CEFS, `C77_program`: CEFS, `C77_display`: CEFS, `C77_in_program`: CEFS, `C77_constant_refuted`: CEFS |
| C78 | `C78_sum`: CEFS, `C78_any_order`: CEFS, `C78_default`: CEFS, `C78_beyond_limits_refuted`: CEFS |
| C79 | `C79_cells`: CEFS, `C79_limited`: CEFS, `C79_in_range`: CEFS |
| C80 | `C80_ray`: CEFS, `C80_result`: CEFS, `C80_rays`: CEFS, `C80_scan`: CEFS, `C80_in_range`: CEFS |
| C81 | `C81_ray`: CEFS, `C81_one_stop`: CEFS, `C81_scan`: CEFS |
| C82 | `C82_cell`: CEFS, `C82_ray`: CEFS, `C82_scan`: CEFS, `C82_any_ray_refuted`: CEFS |
| C83 | `C83_exact`: EFS, `C83_marker`: CEFS, `C83_picture`: CEFS, `C83_next`: CEFS, `C83_current_refuted`: CEFS |
| C84 | `C84_cell`: CEFS, `C84_ray`: CEFS, `C84_scan`: CEFS, `C84_new`: CEFS, `C84_map`: CEFS, `C84_occupied`: EF, `C84_any_size_refuted`: CEFS, `C84_any_factor_refuted`: CEFS |
| C85 | `C85_extent`: CEFS, `C85_same_hull`: CEFS, `C85_size`: CEFS, `C85_scans`: CEFS, `C85_program_size`: CEFS, `C85_program_settles`: CEFS |
| C86 | `C86_ray`: CEFS, `C86_scan`: CEFS, `C86_new`: CEFS, `C86_expand`: CEFS, `C86_map`: CEFS, `C86_occupied`: closed, `C86_ties_refuted`: CEFS, `C86_third_axis_refuted`: CEFS |
| C87 | `C87_reads`: CEFS, `C87_unambiguous`: EF, `C87_accepts`: CEFS, `C87_infinite`: CEFS, `C87_nan`: CEFS, `C87_characters`: CEFS, `C87_closest`: CEFS, `C87_monotone`: CEFS, `C87_read_back`: CEFS, `C87_records`: CEFS, `C87_record`: CEFS, `C87_positions`: CEFS, `C87_line_break`: CEFS, `C87_nan_origin`: CEFS |
| C88 | `C88_exact`: EFS, `C88_ray`: CEFS, `C88_scan`: CEFS, `C88_map`: CEFS, `C88_grown`: CEFS, `C88_beforehand`: CEFS, `C88_tenth_refuted`: CEFS |
| C89 | `C89_exact`: EFS, `C89_ray`: CEFS, `C89_map`: CEFS, `C89_step`: CEFS, `C89_points`: CEFS, `C89_size_refuted`: CEFS, `C89_taken_refuted`: CEFS |
| C90 | `C90_exact`: EFS, `C90_corner_refuted`: CEFS, `C90_f32_refuted`: CEFS, `C90_f32`: CEFS |
| C91 | `C91_scenes`: CEFS, `C91_opens`: CEFS, `C91_never_panics`: CEFS, `C91_displayed`: CEFS |
| C92 | `C92_same_ray`: CEFS, `C92_limited`: CEFS, `C92_scan`: CEFS, `C92_near_refuted`: CEFS |
| C93 | `C93_rays`: CEFS, `C93_taken`: CEFS, `C93_values`: CEFS, `C93_copies`: CEFS |
| C94 | `C94_ray`: CEFS, `C94_limited`: CEFS, `C94_scan`: CEFS, `C94_map`: CEFS |
| C95 | `C95_ray`: CEFS, `C95_limited`: CEFS, `C95_map`: CEFS, `C95_moved`: CEFS |
| C96 | `C96_values`: CEFS, `C96_same`: CEFS, `C96_taken`: CEFS, `C96_ends`: CEFS |
| C97 | `C97_values`: CEFS, `C97_occupied`: CEFS, `C97_order`: CEFS, `C97_changed`: CEFS, `C97_default`: CEFS |
| C98 | `C98_state`: CEFS, `C98_displayed`: CEFS, `C98_in_program`: CEFS, `C98_files`: CEFS |
| C99 | `C99_values`: CEFS, `C99_same`: CEFS, `C99_taken`: CEFS, `C99_ends`: CEFS, `C99_occupied`: CEFS, `C99_order`: CEFS, `C99_changed`: CEFS, `C99_limit`: CEFS |
| C100 | `C100_mapped`: CEFS, `C100_walls`: CEFS, `C100_unlimited`: CEFS, `C100_unlimited_walls`: CEFS, `C100_stored`: CEFS, `C100_rounding_refuted`: CEFS, `C100_default`: CEFS, `C100_order`: CEFS, `C100_changed`: CEFS |
