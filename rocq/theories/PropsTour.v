(** C98: the visualiser in a world with walls. *)
From Coq Require Import ZArith List Bool Reals.
From Flocq Require Import Core BinarySingleNaN.
From Verif Require Import Base F32 F64 Arith Geom NdArray GridMap RayCaster NoiseModel Kitti Spec SpecMap SpecNoise SpecKitti SpecBack SpecMeet SpecNear Viz SpecViz Pose SpecPose SpecMain SpecWorld SpecWall SpecTour
  ScanProofs TourProofs TourFileProofs Examples MathProofs ExamplesKitti ExamplesPose ExamplesScene ExamplesTour.
Open Scope Z_scope.

(** At any time of any run, a cell of the map is occupied exactly if one of the frames integrated so far hits it, and then it is a wall. *)
Theorem C98_state : forall rec d r t m S wall, recording_ok d r t rec -> fltb f0 (max_range m) = true -> finite (max_range m) -> (real (max_range m) <= 1048576 * real r)%R ->
  signs_ok m -> fle f0 (occupied_threshold_logodds m) -> fltb (occupied_threshold_logodds m) (evidence m f0 true) = true ->
  Forall2 (taken_at d (max_range m) r) S (combine (origins rec) (clouds rec)) -> Forall (sees d (real (max_range m)) (real r) wall) S ->
  forall tr s, reaches rec d m r t tr s -> exists cb, covers_cells d r t (om_grid (grid s)) cb /\
  forall w, length w = d ->
    (tour_hits d (real (max_range m)) (real r) (firstn (integrations tr) S) w -> wall w /\ in_box cb w) /\
    (in_box cb w -> exists b, om_occupied (grid s) (map2 Z.sub w (cmin cb)) = Ret b /\ (b = true <-> tour_hits d (real (max_range m)) (real r) (firstn (integrations tr) S) w)).
Proof. exact tour_state. Qed.
Print Assumptions C98_state.

(** Under a fair scheduler the display shows, from some time on, exactly the walls that some frame hits, each once and at its place. *)
Theorem C98_displayed : forall rec d r t m o st th ev S wall, recording_ok d r t rec -> fltb f0 (max_range m) = true -> finite (max_range m) -> (real (max_range m) <= 1048576 * real r)%R ->
  signs_ok m -> fle f0 (occupied_threshold_logodds m) -> fltb (occupied_threshold_logodds m) (evidence m f0 true) = true ->
  Forall2 (taken_at d (max_range m) r) S (combine (origins rec) (clouds rec)) -> Forall (sees d (real (max_range m)) (real r) wall) S ->
  first_lowest rec -> om_new d m r t = Ret o -> execution rec o st th ev -> fair rec st th ->
  exists N, forall n, (N <= n)%nat -> exists cb, covers_cells d r t (om_grid (grid (st n))) cb /\
    (forall w, length w = d -> (tour_hits d (real (max_range m)) (real r) S w <-> exists p, In (map2 Z.sub w (cmin cb), p) (tracked (st n)))) /\
    (forall c p, In (c, p) (tracked (st n)) -> in_box cb (map2 Z.add (cmin cb) c) /\ wall (map2 Z.add (cmin cb) c) /\ near_cell r (map2 Z.add (cmin cb) c) p) /\
    NoDup (map fst (tracked (st n))).
Proof. exact tour_displayed. Qed.
Print Assumptions C98_displayed.

(** The same with the parameters and the noise model of the program. *)
Theorem C98_in_program : forall ln rec o st th ev S wall, ln_special ln -> ln_monotone ln -> (forall x, fltb f1 x = true -> fltb f0 (ln x) = true) ->
  om_default 3 ln = Ret o -> recording_ok 3 DEFAULT_RESOLUTION DEFAULT_TILE_SIZE rec -> first_lowest rec -> execution rec o st th ev -> fair rec st th ->
  Forall2 (taken_at 3 DEFAULT_MAX_RANGE DEFAULT_RESOLUTION) S (combine (origins rec) (clouds rec)) ->
  Forall (sees 3 (real DEFAULT_MAX_RANGE) (real DEFAULT_RESOLUTION) wall) S ->
  exists N, forall n, (N <= n)%nat -> exists cb, covers_cells 3 DEFAULT_RESOLUTION DEFAULT_TILE_SIZE (om_grid (grid (st n))) cb /\
    (forall w, length w = 3%nat -> (tour_hits 3 (real DEFAULT_MAX_RANGE) (real DEFAULT_RESOLUTION) S w <-> exists p, In (map2 Z.sub w (cmin cb), p) (tracked (st n)))) /\
    (forall c p, In (c, p) (tracked (st n)) -> in_box cb (map2 Z.add (cmin cb) c) /\ wall (map2 Z.add (cmin cb) c) /\ near_cell DEFAULT_RESOLUTION (map2 Z.add (cmin cb) c) p) /\
    NoDup (map fst (tracked (st n))).
Proof. exact tour_in_program. Qed.
Print Assumptions C98_in_program.

(** From the files to the display: the scans are the points of the files, turned and shifted in exact arithmetic. *)
Theorem C98_files : forall s lookup args path rec vs ms scs ln o st th ev wall, viz_main s lookup args = Ret (Some rec) -> nth_error args 1 = Some path -> drive s (lookup path) vs ms ->
  vs <> [] -> trig_accurate (sys_sin s) (sys_cos s) -> measured s vs ms -> near_start s vs ms -> scenes_of s vs ms scs -> Forall (scene_clear (real DEFAULT_RESOLUTION)) scs ->
  lowest_first (real DEFAULT_RESOLUTION) scs -> Forall (fun sc => Forall (clear_segment 60 (world 3) (real DEFAULT_RESOLUTION) (fst sc)) (snd sc)) scs ->
  Forall (sees 3 60 (real DEFAULT_RESOLUTION) wall) scs -> ln_special ln -> ln_monotone ln -> (forall x, fltb f1 x = true -> fltb f0 (ln x) = true) ->
  om_default 3 ln = Ret o -> execution rec o st th ev -> fair rec st th ->
  exists N, forall n, (N <= n)%nat -> exists cb, covers_cells 3 DEFAULT_RESOLUTION DEFAULT_TILE_SIZE (om_grid (grid (st n))) cb /\
    (forall w, length w = 3%nat -> (tour_hits 3 60 (real DEFAULT_RESOLUTION) scs w <-> exists p, In (map2 Z.sub w (cmin cb), p) (tracked (st n)))) /\
    (forall c p, In (c, p) (tracked (st n)) -> in_box cb (map2 Z.add (cmin cb) c) /\ wall (map2 Z.add (cmin cb) c) /\ near_cell DEFAULT_RESOLUTION (map2 Z.add (cmin cb) c) p) /\
    NoDup (map fst (tracked (st n))).
Proof. exact tour_files. Qed.
Print Assumptions C98_files.

(** A drive of two frames past four walls: the first frame does not hit the wall three cells to the east, the second does. *)
Example C98_example : drive ex_sys (tr_lookup name02) still_vs tr_ms /\ trig_accurate (sys_sin ex_sys) (sys_cos ex_sys) /\ (measured ex_sys still_vs tr_ms /\ near_start ex_sys still_vs tr_ms) /\
  scenes_of ex_sys still_vs tr_ms tr_scenes /\ Forall (scene_clear (real DEFAULT_RESOLUTION)) tr_scenes /\ lowest_first (real DEFAULT_RESOLUTION) tr_scenes /\
  Forall (fun sc => Forall (clear_segment 60 (world 3) (real DEFAULT_RESOLUTION) (fst sc)) (snd sc)) tr_scenes /\ Forall (sees 3 60 (real DEFAULT_RESOLUTION) tr_walls) tr_scenes /\
  (ln_special coarse_ln /\ ln_monotone coarse_ln /\ forall x, fltb f1 x = true -> fltb f0 (coarse_ln x) = true) /\
  (exists rec o st th ev, viz_main ex_sys tr_lookup [name10; name02] = Ret (Some rec) /\ om_default 3 coarse_ln = Ret o /\
    (recording_ok 3 DEFAULT_RESOLUTION DEFAULT_TILE_SIZE rec /\ first_lowest rec /\ Forall2 (taken_at 3 DEFAULT_MAX_RANGE DEFAULT_RESOLUTION) tr_scenes (combine (origins rec) (clouds rec))) /\
    execution rec o st th ev /\ fair rec st th) /\
  tour_hits 3 60 (real DEFAULT_RESOLUTION) (firstn 1 tr_scenes) [-3; 0; 0] /\ ~ tour_hits 3 60 (real DEFAULT_RESOLUTION) (firstn 1 tr_scenes) [3; 0; 0] /\
  tour_hits 3 60 (real DEFAULT_RESOLUTION) tr_scenes [3; 0; 0].
Proof.
  exact (conj tr_drive (conj ex_trig (conj tr_measured (conj tr_scenes_of (conj tr_scenes_clear (conj tr_lowest (conj tr_segments (conj tr_scenes_see
    (conj (conj coarse_ln_special (conj coarse_ln_monotone coarse_ln_positive)) (conj tr_runs tr_hits)))))))))).
Qed.
