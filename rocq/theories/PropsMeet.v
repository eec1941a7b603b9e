(** C94: away from corners, scans mark exactly the cells their beams meet. *)
From Coq Require Import ZArith List Bool Reals.
From Flocq Require Import Core BinarySingleNaN.
From Verif Require Import Base F32 Arith Geom NdArray GridMap RayCaster NoiseModel Spec SpecMap SpecNoise SpecBack SpecMeet MeetProofs MeetMapProofs ExamplesNoise ExamplesSame ExamplesMeet.
Open Scope Z_scope.

(** The cells of an f32 ray are those the segment meets, in the order of their number of steps from the origin. *)
Theorem C94_ray : forall d (o e b : point) (r : f32), (d = 2 \/ d = 3)%nat -> length o = d -> length e = d -> length b = d -> ray_short r o e b ->
  off_borders (/ 16)%R (map real b) (real r) (map real o) -> off_borders (/ 16)%R (map real b) (real r) (map real e) ->
  no_corner_near (/ 16)%R (map real b) (real r) (map real o) (map real e) ->
  let oc := nearest_cell (map real b) (real r) (map real o) in let ec := nearest_cell (map real b) (real r) (map real e) in
  forall fuel m, fltb f0 m = false -> manhattan oc ec <= Z.of_nat fuel ->
  exists path, cast_ray F32A fuel o e b r m = Ret (path, Some ec) /\
    (forall x, In x (path ++ [ec]) <-> meets (map real b) (real r) (map real o) (map real e) x) /\
    (forall k x, nth_error (path ++ [ec]) k = Some x -> manhattan oc x = Z.of_nat k).
Proof. exact crossed. Qed.
Print Assumptions C94_ray.

Example C94_ray_example : ray_short f1 sm_o sm_e sm_b /\
  off_borders (/ 16)%R (map real sm_b) (real f1) (map real sm_o) /\ off_borders (/ 16)%R (map real sm_b) (real f1) (map real sm_e) /\
  no_corner_near (/ 16)%R (map real sm_b) (real f1) (map real sm_o) (map real sm_e) /\
  cast_ray F32A 20 sm_o sm_e sm_b f1 f0 = Ret ([[0; 0; 0]; [1; 0; 0]; [1; 0; 1]; [2; 0; 1]; [2; 1; 1]; [3; 1; 1]], Some [4; 1; 1]).
Proof. exact sm_case. Qed.

(** With a length limit: those before the first one that is too far; the end is reported exactly if there is none. *)
Theorem C94_limited : forall d (o e b : point) (r : f32), (d = 2 \/ d = 3)%nat -> length o = d -> length e = d -> length b = d ->
  forall fuel m, clear_ray m r b o e -> fltb f0 m = true -> finite m -> (real m <= 1048576 * real r)%R -> (3072 <= fuel)%nat ->
  let B := map real b in let O := map real o in let E := map real e in
  exists rc oe, cast_ray F32A fuel o e b r m = Ret (rc, oe) /\ (forall x, In x rc <-> beam_passes (real m) B (real r) O E x) /\
    (forall c, oe = Some c <-> c = nearest_cell B (real r) E /\ beam_arrives (real m) B (real r) O E).
Proof. exact beam. Qed.
Print Assumptions C94_limited.

(** The free and occupied cells of a scan. *)
Theorem C94_scan : forall d fuel (o : point) cloud (bd : bounds) r m, (d = 2 \/ d = 3)%nat -> length o = d -> length (bmin bd) = d ->
  fltb f0 m = true -> finite m -> (real m <= 1048576 * real r)%R -> (3072 <= fuel)%nat ->
  (forall p, In p (pc_points cloud) -> length p = d /\ clear_ray m r (bmin bd) o p) ->
  let B := map real (bmin bd) in let O := map real o in
  exists free occ, cast_rays fuel o cloud bd r m = Ret (free, occ) /\
    (forall c, In c occ <-> exists p, In p (pc_points cloud) /\ c = nearest_cell B (real r) (map real p) /\ beam_arrives (real m) B (real r) O (map real p)) /\
    (forall c, In c free <-> (exists p, In p (pc_points cloud) /\ beam_passes (real m) B (real r) O (map real p) c) /\ ~ In c occ).
Proof. exact scan_meets. Qed.
Print Assumptions C94_scan.

Example C94_scan_example : fltb f0 sm_m = true /\ finite sm_m /\ (real sm_m <= 1048576 * real f1)%R /\
  (forall p, In p (pc_points sm_cloud) -> length p = 3%nat /\ clear_ray sm_m f1 sm_b sm_o p) /\
  cast_rays 20 sm_o sm_cloud (mkBounds sm_b sm_e) f1 sm_m = Ret ([[0; 0; 0]; [1; 0; 0]; [1; 0; 1]; [2; 0; 1]; [2; 1; 1]], [[2; 0; 0]]).
Proof. exact sm_scan. Qed.

(** The map: the scan is taken in exactly if the cells it hits and passes are in the grown map; the cells hit get
    the evidence of a hit, the others passed that of a miss, and all others keep their values. *)
Theorem C94_map : forall d r t fuel of oo m g g1 o cloud, map_range d r t -> reachable d r t g -> is_order of -> is_order oo -> request_ok d r (pc_bounds cloud) -> length o = d ->
  gm_expand_bounds g (pc_bounds cloud) f0 = Ret g1 ->
  fltb f0 (max_range m) = true -> finite (max_range m) -> (real (max_range m) <= 1048576 * real r)%R -> (3072 <= fuel)%nat ->
  (forall p, In p (pc_points cloud) -> length p = d /\ clear_ray (max_range m) r (bmin (gm_bounds g1)) o p) ->
  let B := map real (bmin (gm_bounds g1)) in let O := map real o in let M := real (max_range m) in
  let hit c := exists p, In p (pc_points cloud) /\ c = nearest_cell B (real r) (map real p) /\ beam_arrives M B (real r) O (map real p) in
  let passed c := exists p, In p (pc_points cloud) /\ beam_passes M B (real r) O (map real p) c in
  ((exists g', integrate_point_cloud fuel of oo m g o cloud = Ret g') <-> (forall c, hit c \/ passed c -> in_range (nd_shape (gm_data g1)) c)) /\
  forall g', integrate_point_cloud fuel of oo m g o cloud = Ret g' -> gm_bounds g' = gm_bounds g1 /\
    (forall c, hit c -> exists v, gm_get g1 c = Ret v /\ gm_get g' c = Ret (fmin (fadd v (hit_logodds m)) (max_logodds m))) /\
    (forall c, ~ hit c -> passed c -> exists v, gm_get g1 c = Ret v /\ gm_get g' c = Ret (fmax (fadd v (miss_logodds m)) (min_logodds m))) /\
    (forall c, cells_in_isize c -> ~ hit c -> ~ passed c -> gm_get g' c = gm_get g1 c).
Proof. exact map_meets. Qed.
Print Assumptions C94_map.

Example C94_map_example : exists g g1 g' : grid_map f32, map_range 3 f1 2 /\ reachable 3 f1 2 g /\ request_ok 3 f1 (pc_bounds sm_cloud) /\ length sm_o = 3%nat /\
  gm_expand_bounds g (pc_bounds sm_cloud) f0 = Ret g1 /\
  fltb f0 (max_range sm_lidar) = true /\ finite (max_range sm_lidar) /\ (real (max_range sm_lidar) <= 1048576 * real f1)%R /\
  (forall p, In p (pc_points sm_cloud) -> length p = 3%nat /\ clear_ray (max_range sm_lidar) f1 (bmin (gm_bounds g1)) sm_o p) /\
  integrate_point_cloud 3072 as_is as_is sm_lidar g sm_o sm_cloud = Ret g' /\
  gm_get g' [2; 0; 0] = Ret (f32_lit 85 100) /\ gm_get g' [2; 1; 1] = Ret (f32_lit (-4) 10) /\ gm_get g' [3; 1; 1] = Ret f0.
Proof. exact sm_map. Qed.
