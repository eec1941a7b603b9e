(** C89: moving the whole scene. *)
From Coq Require Import ZArith List Bool Reals.
From Flocq Require Import Core BinarySingleNaN.
From Verif Require Import Base F32 Arith Geom NdArray GridMap RayCaster NoiseModel Spec SpecMap SpecNoise SpecShift SpecMove MoveProofs MoveMapProofs ExamplesMap ExamplesNoise ExamplesShift ExamplesMove.
Open Scope Z_scope.

(** In exact arithmetic a ray passes through the same cells if its ends and the corner of the grid are all moved alike, however far. *)
Theorem C89_exact : forall (o e b o' e' b' v : list R) r m fuel, length o = length b -> length e = length b ->
  moved_by v o o' -> moved_by v e e' -> moved_by v b b' ->
  cast_ray RealA fuel (map Fin o') (map Fin e') (map Fin b') (Fin r) m = cast_ray RealA fuel (map Fin o) (map Fin e) (map Fin b) (Fin r) m.
Proof. exact exact_moved. Qed.
Print Assumptions C89_exact.

Example C89_exact_example : moved_by [1 / 3; -7]%R [1 / 4; 1 / 2]%R [7 / 12; -13 / 2]%R /\ moved_by [1 / 3; -7]%R [2; 5 / 4]%R [7 / 3; -23 / 4]%R /\ moved_by [1 / 3; -7]%R [0; 0]%R [1 / 3; -7]%R.
Proof. exact mr_exact. Qed.

(** So it is in f32 arithmetic if all coordinates are multiples of a power of two and the resolution an even one. *)
Theorem C89_ray : forall d q (o e b o' e' b' : point) r v, (d = 2 \/ d = 3)%nat -> -60 <= q <= 30 -> length b = d -> even_units q r ->
  Forall (units q) b -> Forall (units q) b' -> Forall (units q) o -> Forall (units q) e -> Forall (units q) o' -> Forall (units q) e' ->
  above (map real b) (map real o) -> above (map real b) (map real e) ->
  moved_by v (map real o) (map real o') -> moved_by v (map real e) (map real e') -> moved_by v (map real b) (map real b') ->
  forall fuel m, Z.of_nat fuel <= 2 ^ 61 -> fltb f0 m = false \/ (finite m /\ (real m <= IZR (2 ^ 21) * bpow radix2 q)%R) ->
  cast_ray F32A fuel o' e' b' r m = cast_ray F32A fuel o e b r m.
Proof. exact ray_with_all. Qed.
Print Assumptions C89_ray.

Example C89_ray_example : even_units (-3) half /\ Forall (units (-3)) sh_b /\ Forall (units (-3)) mr_b' /\ Forall (units (-3)) sh_o /\ Forall (units (-3)) sh_e /\ Forall (units (-3)) mr_o' /\ Forall (units (-3)) mr_e' /\
  above (map real sh_b) (map real sh_o) /\ above (map real sh_b) (map real sh_e) /\
  moved_by mr_v (map real sh_o) (map real mr_o') /\ moved_by mr_v (map real sh_e) (map real mr_e') /\ moved_by mr_v (map real sh_b) (map real mr_b') /\
  cast_ray F32A 20 mr_o' mr_e' mr_b' half f0 = Ret ([[1; 1]; [2; 1]; [2; 2]; [3; 2]; [4; 2]], Some [4; 3]).
Proof. exact mr_example. Qed.

(** Maps do not move along with the scene: they grow by whole tiles counted from the world's origin. Still, if the scans moved
    by [K] whole cells are taken as well, then after however many of them the second map says at every place what the first says
    [K] cells before it. *)
Theorem C89_map : forall d r t q m K g h, map_range d r t -> -60 <= q <= 30 -> even_units q r -> length K = d ->
  fltb f0 (max_range m) = false \/ (finite (max_range m) /\ (real (max_range m) <= IZR (2 ^ 21) * bpow radix2 q)%R) ->
  moved_history d r t q m K g h -> same_elsewhere d r t K g h.
Proof. exact history_elsewhere. Qed.
Print Assumptions C89_map.

(** One more scan on any two maps of which this is true. *)
Theorem C89_step : forall d r t q K fuel of oo of' oo' m g h o cloud o' cloud' g' h', map_range d r t -> -60 <= q <= 30 -> even_units q r ->
  fltb f0 (max_range m) = false \/ (finite (max_range m) /\ (real (max_range m) <= IZR (2 ^ 21) * bpow radix2 q)%R) -> length K = d ->
  reachable d r t g -> reachable d r t h -> same_elsewhere d r t K g h -> Z.of_nat fuel <= 2 ^ 61 ->
  is_order of -> is_order oo -> is_order of' -> is_order oo' ->
  moved_scan (cells_of (real r) K) o cloud o' cloud' -> request_ok d r (pc_bounds cloud) -> request_ok d r (pc_bounds cloud') ->
  integrate_point_cloud fuel of oo m g o cloud = Ret g' -> integrate_point_cloud fuel of' oo' m h o' cloud' = Ret h' ->
  near_zero q (bmin (gm_bounds g')) -> near_zero q (bmin (gm_bounds h')) -> in_view q (bmin (gm_bounds g')) o cloud -> in_view q (bmin (gm_bounds h')) o' cloud' ->
  same_elsewhere d r t K g' h'.
Proof. exact step_elsewhere. Qed.
Print Assumptions C89_step.

(** A point and the point moved likewise read the same value. A point outside of one map reads zero in the other if it can be read there. *)
Theorem C89_points : forall d r t q m K g h p p', map_range d r t -> -60 <= q <= 30 -> even_units q r -> length K = d ->
  fltb f0 (max_range m) = false \/ (finite (max_range m) /\ (real (max_range m) <= IZR (2 ^ 21) * bpow radix2 q)%R) ->
  moved_history d r t q m K g h -> near_zero q (bmin (gm_bounds g)) -> near_zero q (bmin (gm_bounds h)) ->
  Forall (units q) p -> Forall (units q) p' -> above (map real (bmin (gm_bounds g))) (map real p) -> above (map real (bmin (gm_bounds h))) (map real p') ->
  moved_by (cells_of (real r) K) (map real p) (map real p') ->
  let x := gm_get g (gm_cell_from_point g p) in let y := gm_get h (gm_cell_from_point h p') in
  ((exists v, x = Ret v) /\ y = x) \/ (x = Ret f0 /\ y = Panic) \/ (x = Panic /\ y = Ret f0) \/ (x = Panic /\ y = Panic).
Proof. exact points_elsewhere. Qed.
Print Assumptions C89_points.

(** Two scans with cells of 1/2, and the same scans twenty cells to the right and six up; the point hit twice. *)
Example C89_map_example : exists g h, moved_history 2 half 4 (-2) ex_lidar mv_K g h /\ near_zero (-2) (bmin (gm_bounds g)) /\ near_zero (-2) (bmin (gm_bounds h)) /\
  nd_shape (gm_data g) = [8; 4] /\ nd_shape (gm_data h) = [28; 12] /\
  gm_get g (gm_cell_from_point g mv_p) = Ret mv_hit2 /\ gm_get h (gm_cell_from_point h mv_p') = Ret mv_hit2.
Proof. exact mv_history. Qed.
Example C89_limit_example : finite (max_range ex_lidar) /\ (real (max_range ex_lidar) <= IZR (2 ^ 21) * bpow radix2 (-2))%R.
Proof. exact mv_near_limit. Qed.

(** The maps need not be of the same size, as the box a map is grown to always contains the world's origin. *)
Theorem C89_size_refuted : exists K g h, map_range 2 half 4 /\ moved_history 2 half 4 (-2) ex_lidar K g h /\ nd_shape (gm_data g) <> nd_shape (gm_data h).
Proof. exact mv_sizes. Qed.
Print Assumptions C89_size_refuted.

(** For the same reason a scan that a new map takes is not always taken when moved: the sensor at (0,0) and a point at (3,3) moved
    to (-10,-10) and (-7,-7). The map is made to contain the point and the origin, not the sensor. *)
Theorem C89_taken_refuted : exists fuel K (g g' : grid_map f32) o cloud o' cloud', map_range 2 half 4 /\ gm_new half (bounds_empty 2) 4 f0 = Ret g /\
  moved_scan (cells_of (real half) K) o cloud o' cloud' /\ request_ok 2 half (pc_bounds cloud) /\ request_ok 2 half (pc_bounds cloud') /\
  integrate_point_cloud fuel as_is as_is ex_lidar g o cloud = Ret g' /\ in_view (-2) (bmin (gm_bounds g')) o cloud /\
  forall fuel' of oo h', is_order of -> is_order oo -> integrate_point_cloud fuel' of oo ex_lidar g o' cloud' <> Ret h'.
Proof. exact mp_refuted. Qed.
Print Assumptions C89_taken_refuted.
