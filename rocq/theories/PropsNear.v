(** C95: where the exact beams are clear, rounding of the points changes nothing. *)
From Coq Require Import ZArith List Bool Reals.
From Flocq Require Import Core BinarySingleNaN.
From Verif Require Import Base F32 Arith Geom NdArray GridMap RayCaster NoiseModel Spec SpecMap SpecNoise SpecBack SpecMeet SpecNear NearProofs NearMapProofs ExamplesNoise ExamplesSame ExamplesMeet ExamplesNear.
Open Scope R_scope.

(** An f32 ray between points that are off by at most a 64th of a cell has the cells that the exact segment meets. *)
Theorem C95_ray : forall d (o e b : point) (r : f32) (O E : list R), (d = 2 \/ d = 3)%nat -> length o = d -> length e = d -> length b = d -> ray_short r o e b ->
  off_by_cells (/ 64)%R (real r) (map real o) O -> off_by_cells (/ 64)%R (real r) (map real e) E ->
  let B := map real b in off_borders (/ 8) B (real r) O -> off_borders (/ 8) B (real r) E -> no_corner_near (/ 8) B (real r) O E ->
  let oc := nearest_cell B (real r) O in let ec := nearest_cell B (real r) E in
  forall fuel m, fltb f0 m = false -> (manhattan oc ec <= Z.of_nat fuel)%Z ->
  exists path, cast_ray F32A fuel o e b r m = Ret (path, Some ec) /\
    (forall x, In x (path ++ [ec]) <-> meets B (real r) O E x) /\
    (forall k x, nth_error (path ++ [ec]) k = Some x -> manhattan oc x = Z.of_nat k).
Proof. exact near_ray. Qed.
Print Assumptions C95_ray.

(** With a length limit. *)
Theorem C95_limited : forall d (o e b : point) (r : f32) (O E : list R), (d = 2 \/ d = 3)%nat -> length o = d -> length e = d -> length b = d -> ray_short r o e b ->
  off_by_cells (/ 64)%R (real r) (map real o) O -> off_by_cells (/ 64)%R (real r) (map real e) E ->
  forall fuel m, let B := map real b in clear_segment (real m) B (real r) O E -> fltb f0 m = true -> finite m -> real m <= 1048576 * real r -> (3072 <= fuel)%nat ->
  exists rc oe, cast_ray F32A fuel o e b r m = Ret (rc, oe) /\ (forall x, In x rc <-> beam_passes (real m) B (real r) O E x) /\
    (forall c, oe = Some c <-> c = nearest_cell B (real r) E /\ beam_arrives (real m) B (real r) O E).
Proof. exact near_beam. Qed.
Print Assumptions C95_limited.

Example C95_ray_example : ray_short f1 sm_b tn_p sm_b /\ off_by_cells (/ 64) (real f1) (map real sm_b) [0; 0; 0] /\ off_by_cells (/ 64) (real f1) (map real tn_p) tn_P /\ map real tn_p <> tn_P /\
  clear_segment (real sm_m) (map real sm_b) (real f1) [0; 0; 0] tn_P /\
  cast_ray F32A 20 sm_b tn_p sm_b f1 sm_m = Ret ([[0; 0; 0]; [1; 0; 0]; [1; 0; 1]], Some [2; 0; 1])%Z.
Proof. exact tn_ray. Qed.

Open Scope Z_scope.
(** The map after a scan, by the exact points [pts] that the points of the cloud stand for. *)
Theorem C95_map : forall d r t fuel of oo m g g1 o cloud O pts, map_range d r t -> reachable d r t g -> is_order of -> is_order oo -> request_ok d r (pc_bounds cloud) -> length o = d ->
  gm_expand_bounds g (pc_bounds cloud) f0 = Ret g1 ->
  fltb f0 (max_range m) = true -> finite (max_range m) -> (real (max_range m) <= 1048576 * real r)%R -> (3072 <= fuel)%nat ->
  let B := map real (bmin (gm_bounds g1)) in let M := real (max_range m) in
  off_by_cells (/ 64)%R (real r) (map real o) O ->
  Forall2 (fun q p => length p = d /\ ray_short r o p (bmin (gm_bounds g1)) /\ off_by_cells (/ 64)%R (real r) (map real p) q /\ clear_segment M B (real r) O q) pts (pc_points cloud) ->
  let hit c := exists q, In q pts /\ c = nearest_cell B (real r) q /\ beam_arrives M B (real r) O q in
  let passed c := exists q, In q pts /\ beam_passes M B (real r) O q c in
  ((exists g', integrate_point_cloud fuel of oo m g o cloud = Ret g') <-> (forall c, hit c \/ passed c -> in_range (nd_shape (gm_data g1)) c)) /\
  forall g', integrate_point_cloud fuel of oo m g o cloud = Ret g' -> gm_bounds g' = gm_bounds g1 /\
    (forall c, hit c -> exists v, gm_get g1 c = Ret v /\ gm_get g' c = Ret (fmin (fadd v (hit_logodds m)) (max_logodds m))) /\
    (forall c, ~ hit c -> passed c -> exists v, gm_get g1 c = Ret v /\ gm_get g' c = Ret (fmax (fadd v (miss_logodds m)) (min_logodds m))) /\
    (forall c, cells_in_isize c -> ~ hit c -> ~ passed c -> gm_get g' c = gm_get g1 c).
Proof. exact near_map. Qed.
Print Assumptions C95_map.

Example C95_map_example : exists g1 : grid_map f32, exists g, reachable 3 f1 2 g /\ gm_expand_bounds g (pc_bounds tn_cloud) f0 = Ret g1 /\
  off_by_cells (/ 64)%R (real f1) (map real sm_b) (map real sm_b) /\
  Forall2 (fun q p => length p = 3%nat /\ ray_short f1 sm_b p (bmin (gm_bounds g1)) /\ off_by_cells (/ 64)%R (real f1) (map real p) q /\
    clear_segment (real (max_range sm_lidar)) (map real (bmin (gm_bounds g1))) (real f1) (map real sm_b) q) [tn_P; tn_Q] (pc_points tn_cloud).
Proof. exact tn_near. Qed.

(** A raw cloud moved by a pose in f32: the map is that of the points moved by the pose in exact arithmetic. *)
Theorem C95_moved : forall r t fuel of oo m g g1 o r1 r2 r3 r4 raw, map_range 3 r t -> reachable 3 r t g -> is_order of -> is_order oo ->
  matrix_ok raw -> nrows raw = 3%nat -> Forall moderate (mdata raw) -> Forall (fun row => length row = 4%nat /\ Forall moderate row) [r1; r2; r3] ->
  (forall p, In p (pc_points raw) -> Forall (fun row => affine_size row p <= 16384 * real r)%R [r1; r2; r3]) ->
  let cloud := pc_transform [r1; r2; r3; r4] raw in let exact_place p := [affine r1 p; affine r2 p; affine r3 p] in
  request_ok 3 r (pc_bounds cloud) -> length o = 3%nat -> gm_expand_bounds g (pc_bounds cloud) f0 = Ret g1 ->
  fltb f0 (max_range m) = true -> finite (max_range m) -> (real (max_range m) <= 1048576 * real r)%R -> (3072 <= fuel)%nat ->
  let B := map real (bmin (gm_bounds g1)) in let O := map real o in let M := real (max_range m) in
  (forall p, In p (pc_points cloud) -> ray_short r o p (bmin (gm_bounds g1))) ->
  (forall p, In p (pc_points raw) -> clear_segment M B (real r) O (exact_place p)) ->
  let hit c := exists p, In p (pc_points raw) /\ c = nearest_cell B (real r) (exact_place p) /\ beam_arrives M B (real r) O (exact_place p) in
  let passed c := exists p, In p (pc_points raw) /\ beam_passes M B (real r) O (exact_place p) c in
  ((exists g', integrate_point_cloud fuel of oo m g o cloud = Ret g') <-> (forall c, hit c \/ passed c -> in_range (nd_shape (gm_data g1)) c)) /\
  forall g', integrate_point_cloud fuel of oo m g o cloud = Ret g' -> gm_bounds g' = gm_bounds g1 /\
    (forall c, hit c -> exists v, gm_get g1 c = Ret v /\ gm_get g' c = Ret (fmin (fadd v (hit_logodds m)) (max_logodds m))) /\
    (forall c, ~ hit c -> passed c -> exists v, gm_get g1 c = Ret v /\ gm_get g' c = Ret (fmax (fadd v (miss_logodds m)) (min_logodds m))) /\
    (forall c, cells_in_isize c -> ~ hit c -> ~ passed c -> gm_get g' c = gm_get g1 c).
Proof. exact moved_map. Qed.
Print Assumptions C95_moved.

Example C95_moved_example : (matrix_ok tn_raw /\ nrows tn_raw = 3%nat /\ Forall moderate (mdata tn_raw) /\ Forall (fun row => length row = 4%nat /\ Forall moderate row) [tn1; tn2; tn3]) /\
  (forall p, In p (pc_points tn_raw) -> Forall (fun row => affine_size row p <= 16384 * real f1)%R [tn1; tn2; tn3]) /\
  exists g g1 g' : grid_map f32, map_range 3 f1 2 /\ reachable 3 f1 2 g /\ request_ok 3 f1 (pc_bounds tn_cloud) /\ length sm_b = 3%nat /\
  gm_expand_bounds g (pc_bounds tn_cloud) f0 = Ret g1 /\
  fltb f0 (max_range sm_lidar) = true /\ finite (max_range sm_lidar) /\ (real (max_range sm_lidar) <= 1048576 * real f1)%R /\
  (forall p, In p (pc_points tn_cloud) -> ray_short f1 sm_b p (bmin (gm_bounds g1))) /\
  (forall p, In p (pc_points tn_raw) -> clear_segment (real (max_range sm_lidar)) (map real (bmin (gm_bounds g1))) (real f1) (map real sm_b) [affine tn1 p; affine tn2 p; affine tn3 p]) /\
  integrate_point_cloud 3072 as_is as_is sm_lidar g sm_b tn_cloud = Ret g' /\
  (gm_get g' [2; 0; 1] = Ret (f32_lit 85 100) /\ gm_get g' [2; 0; 0] = Ret (f32_lit (-4) 10) /\ gm_get g' [3; 0; 0] = Ret f0).
Proof. exact (conj tn_moderate (conj tn_sizes tn_map)). Qed.
