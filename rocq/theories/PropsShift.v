(** C88: moving the lower corner of the grid by whole cells. *)
From Coq Require Import ZArith List Bool Reals.
From Flocq Require Import Core BinarySingleNaN.
From Verif Require Import Base F32 Arith Geom NdArray GridMap RayCaster NoiseModel Spec SpecMap SpecNoise SpecShift ShiftProofs ShiftMapProofs ShiftGrowProofs ExamplesMap ExamplesNoise ExamplesShift.
Open Scope Z_scope.

(** In exact arithmetic a ray passes through the same places whatever corner the cells are counted from:
    the corner moved down by [w] cells adds [w] to every cell. *)
Theorem C88_exact : forall d (o e b b' : list R) r w, (d = 2 \/ d = 3)%nat -> length o = d -> length e = d -> length b = d -> (0 < r)%R -> moved_down r w b b' ->
  above b o -> above b e -> above b' o -> above b' e -> small (2 ^ 60) w -> small (2 ^ 60) (nearest_cell b r o) ->
  forall fuel m, Z.of_nat fuel <= 2 ^ 61 ->
  cast_ray RealA fuel (map Fin o) (map Fin e) (map Fin b') (Fin r) m =
  outcome_map (shifted_ray w) (cast_ray RealA fuel (map Fin o) (map Fin e) (map Fin b) (Fin r) m).
Proof. exact exact_shift. Qed.
Print Assumptions C88_exact.

Example C88_exact_example : above [0; 0]%R [1 / 4; 1 / 2]%R /\ above [0; 0]%R [2; 5 / 4]%R /\ above [-1; - (3 / 2)]%R [1 / 4; 1 / 2]%R /\ above [-1; - (3 / 2)]%R [2; 5 / 4]%R /\
  moved_down (1 / 2) [2; 3] [0; 0]%R [-1; - (3 / 2)]%R /\ small (2 ^ 60) [2; 3] /\ nearest_cell [0; 0]%R (1 / 2) [1 / 4; 1 / 2]%R = [1; 1].
Proof. exact sh_exact. Qed.

(** So it is in f32 arithmetic if all coordinates are multiples of a power of two and the resolution an even one, such as
    cells of 1/2, 1/4 or 3/8 and points on a grid of 1/8. *)
Theorem C88_ray : forall d q (o e b b' : point) r w, (d = 2 \/ d = 3)%nat -> -60 <= q <= 30 -> length b = d -> even_units q r ->
  Forall (units q) b -> Forall (units q) b' -> in_sight q b b' o -> in_sight q b b' e -> moved_down (real r) w (map real b) (map real b') ->
  forall fuel m, Z.of_nat fuel <= 2 ^ 61 -> fltb f0 m = false \/ (finite m /\ (real m <= IZR (2 ^ 21) * bpow radix2 q)%R) ->
  cast_ray F32A fuel o e b' r m = outcome_map (shifted_ray w) (cast_ray F32A fuel o e b r m).
Proof. exact ray_moved. Qed.
Print Assumptions C88_ray.

(** A scan. *)
Theorem C88_scan : forall d q o cloud bs bs' r w, (d = 2 \/ d = 3)%nat -> -60 <= q <= 30 -> length (bmin bs) = d -> even_units q r ->
  Forall (units q) (bmin bs) -> Forall (units q) (bmin bs') -> (forall p, p = o \/ In p (pc_points cloud) -> in_sight q (bmin bs) (bmin bs') p) ->
  moved_down (real r) w (map real (bmin bs)) (map real (bmin bs')) ->
  forall fuel m, Z.of_nat fuel <= 2 ^ 61 -> fltb f0 m = false \/ (finite m /\ (real m <= IZR (2 ^ 21) * bpow radix2 q)%R) ->
  cast_rays fuel o cloud bs' r m = outcome_map (shifted_sets w) (cast_rays fuel o cloud bs r m).
Proof. exact scan_moved. Qed.
Print Assumptions C88_scan.

Example C88_ray_example : even_units (-2) half /\ Forall (units (-2)) sh_b /\ Forall (units (-2)) sh_b' /\ in_sight (-2) sh_b sh_b' sh_o /\ in_sight (-2) sh_b sh_b' sh_e /\
  moved_down (real half) [2; 3] (map real sh_b) (map real sh_b') /\
  cast_ray F32A 20 sh_o sh_e sh_b half f0 = Ret ([[1; 1]; [2; 1]; [2; 2]; [3; 2]; [4; 2]], Some [4; 3]) /\
  cast_ray F32A 20 sh_o sh_e sh_b' half f0 = Ret ([[3; 4]; [4; 4]; [4; 5]; [5; 5]; [6; 5]], Some [6; 6]).
Proof. exact sh_ray. Qed.

(** Two maps that hold the same values at the same places, one with its corner further down, do so after a scan as well;
    cells only the larger map has keep their values. *)
Theorem C88_map : forall d q fuel of oo of' oo' m g h g1 h1 o cloud w g', (d = 2 \/ d = 3)%nat -> -60 <= q <= 30 -> Z.of_nat fuel <= 2 ^ 61 ->
  is_order of -> is_order oo -> is_order of' -> is_order oo' -> storage_ok (gm_data g) -> storage_ok (gm_data h) ->
  gm_expand_bounds g (pc_bounds cloud) f0 = Ret g1 -> gm_expand_bounds h (pc_bounds cloud) f0 = Ret h1 -> same_world w g1 h1 ->
  length (bmin (gm_bounds g1)) = d -> even_units q (gm_resolution g1) ->
  Forall (units q) (bmin (gm_bounds g1)) -> Forall (units q) (bmin (gm_bounds h1)) ->
  (forall p, p = o \/ In p (pc_points cloud) -> in_sight q (bmin (gm_bounds g1)) (bmin (gm_bounds h1)) p) ->
  fltb f0 (max_range m) = false \/ (finite (max_range m) /\ (real (max_range m) <= IZR (2 ^ 21) * bpow radix2 q)%R) ->
  integrate_point_cloud fuel of oo m g o cloud = Ret g' ->
  exists h', integrate_point_cloud fuel of' oo' m h o cloud = Ret h' /\ same_world w g' h' /\
    (forall c, cells_in_isize c -> (forall x v, length x = length w -> cells_in_isize x -> gm_get g1 x = Ret v -> c <> shifted w x) -> gm_get h' c = gm_get h1 c).
Proof. exact map_moved. Qed.
Print Assumptions C88_map.

(** A map that has grown is such a larger map. *)
Theorem C88_grown : forall d r t q (g h : grid_map f32) b v, map_range d r t -> reachable d r t g -> request_ok d r b -> gm_expand_bounds g b v = Ret h ->
  -60 <= q <= 30 -> even_units q r -> near_zero q (bmin (gm_bounds g)) -> near_zero q (bmin (gm_bounds h)) ->
  Forall (units q) (bmin (gm_bounds g)) /\ Forall (units q) (bmin (gm_bounds h)) /\ exists w, same_world w g h.
Proof. exact grown_world. Qed.
Print Assumptions C88_grown.

(** So a scan writes the same values at the same places whether or not the map has been made larger before. *)
Theorem C88_beforehand : forall d r t q fuel of oo of' oo' m g h h1 o cloud b g', map_range d r t -> -60 <= q <= 30 -> Z.of_nat fuel <= 2 ^ 61 ->
  is_order of -> is_order oo -> is_order of' -> is_order oo' -> reachable d r t g -> request_ok d r b -> request_ok d r (pc_bounds cloud) ->
  gm_expand_bounds g b f0 = Ret h -> gm_expand_bounds h (pc_bounds cloud) f0 = Ret h1 -> even_units q r ->
  (forall p, p = o \/ In p (pc_points cloud) -> Forall (units q) p /\ above (map real (bmin (gm_bounds g'))) (map real p)) ->
  near_zero q (bmin (gm_bounds g')) -> near_zero q (bmin (gm_bounds h1)) ->
  fltb f0 (max_range m) = false \/ (finite (max_range m) /\ (real (max_range m) <= IZR (2 ^ 21) * bpow radix2 q)%R) ->
  integrate_point_cloud fuel of oo m g o cloud = Ret g' ->
  exists w h', integrate_point_cloud fuel of' oo' m h o cloud = Ret h' /\ same_world w g' h'.
Proof. exact beforehand. Qed.
Print Assumptions C88_beforehand.

(** A new map of cells of 1/2 and the same map grown to (-3,-1) before the scan. *)
Example C88_map_example : exists g h h1 g' h' : grid_map f32, reachable 2 half 4 g /\ request_ok 2 half sh_box /\ request_ok 2 half (pc_bounds sh_cloud) /\
  gm_expand_bounds g sh_box f0 = Ret h /\ gm_expand_bounds h (pc_bounds sh_cloud) f0 = Ret h1 /\
  (forall p, p = sh_o \/ In p (pc_points sh_cloud) -> Forall (units (-2)) p /\ above (map real (bmin (gm_bounds g'))) (map real p)) /\
  near_zero (-2) (bmin (gm_bounds g')) /\ near_zero (-2) (bmin (gm_bounds h1)) /\
  integrate_point_cloud 40 as_is as_is ex_lidar g sh_o sh_cloud = Ret g' /\ integrate_point_cloud 40 as_is as_is ex_lidar h sh_o sh_cloud = Ret h' /\
  nd_shape (gm_data g') = [8; 4] /\ nd_shape (gm_data h') = [16; 8] /\
  gm_get g' [4; 3] = Ret (hit_logodds ex_lidar) /\ gm_get h' [12; 7] = Ret (hit_logodds ex_lidar) /\ gm_get g' [2; 1] = Ret (miss_logodds ex_lidar) /\ gm_get h' [10; 5] = Ret (miss_logodds ex_lidar).
Proof. exact sh_scan. Qed.

(** Not with cells of 0.1: there is a scan that succeeds on the new map, but not on the map grown before, though its corner
    has moved by exactly four cells; the ray misses its end and leaves the map. *)
Theorem C88_tenth_refuted : exists fuel (g h h1 g' : grid_map f32) b cloud o, map_range 2 tenth 4 /\ reachable 2 tenth 4 g /\ request_ok 2 tenth b /\ request_ok 2 tenth (pc_bounds cloud) /\
  gm_expand_bounds g b f0 = Ret h /\ gm_expand_bounds h (pc_bounds cloud) f0 = Ret h1 /\
  (forall p, p = o \/ In p (pc_points cloud) -> above (map real (bmin (gm_bounds g'))) (map real p)) /\
  moved_down (real tenth) [4; 4] (map real (bmin (gm_bounds g'))) (map real (bmin (gm_bounds h1))) /\
  integrate_point_cloud fuel as_is as_is ex_lidar g o cloud = Ret g' /\
  forall fuel' of oo h', is_order of -> is_order oo -> integrate_point_cloud fuel' of oo ex_lidar h o cloud <> Ret h'.
Proof. exact st_refuted. Qed.
Print Assumptions C88_tenth_refuted.

