(** C39-C47, C64-C66: the noise model and occupancy maps. *)
From Coq Require Import ZArith List Bool Reals Lra Lia Permutation.
From Flocq Require Import Core BinarySingleNaN.
From Verif Require Import Base F32 Arith Geom NdArray GridMap RayCaster NoiseModel Spec SpecMap SpecNoise MathProofs NoiseProofs IndexProofs IntegrateRange ScanProofs Examples ExamplesMap ExamplesNoise IndexPoints ExamplesIndex.
Open Scope Z_scope.

Theorem C39_new : forall ln hit miss mn mx thr range,
  (Forall probability [hit; miss; mn; mx; thr] ->
     exists m, lidar_new ln hit miss mn mx thr range = Ret m /\
     let logodds p := ln (fdiv p (fsub f1 p)) in
     hit_logodds m = logodds hit /\ miss_logodds m = logodds miss /\ min_logodds m = logodds mn /\
     max_logodds m = logodds mx /\ occupied_threshold_logodds m = logodds thr /\ max_range m = range) /\
  (~ Forall probability [hit; miss; mn; mx; thr] -> lidar_new ln hit miss mn mx thr range = Panic).
Proof. exact lidar_new_spec. Qed.
Print Assumptions C39_new.

Theorem C39_default : forall ln d, exists m, lidar_default ln = Ret m /\ om_default d ln = om_new d m (f32_lit 1 10) 100 /\
  let logodds p := ln (fdiv p (fsub f1 p)) in
  hit_logodds m = logodds (f32_lit 7 10) /\ miss_logodds m = logodds (f32_lit 4 10) /\ min_logodds m = logodds (f32_lit 1192 10000) /\
  max_logodds m = logodds (f32_lit 971 1000) /\ occupied_threshold_logodds m = logodds (f32_lit 1 2) /\ max_range m = f32_lit 60 1.
Proof. exact default_model. Qed.
Print Assumptions C39_default.

Example C39_example : Forall probability [f32_lit 7 10; f32_lit 4 10; f0; f1; fhalf] /\
  ~ probability (f32_lit 11 10) /\ ~ probability fnan.
Proof. exact (conj ex_probabilities ex_no_probability). Qed.

Theorem C40_values_limited : forall d r t m o c v, signs_ok m -> integrated d r t m o -> gm_get (om_grid o) c = Ret v ->
  fle (min_logodds m) v /\ fle v (max_logodds m).
Proof. exact values_limited. Qed.
Print Assumptions C40_values_limited.

(** The default model has the signs, for a logarithm that respects order and special values. *)
Theorem C40_default_signs : forall ln, ln_special ln -> ln_monotone ln -> exists m, lidar_default ln = Ret m /\ signs_ok m.
Proof. exact default_signs. Qed.
Print Assumptions C40_default_signs.

(** The sign condition on hits cannot be dropped. *)
Theorem C40_signs_needed : exists m o c v, fle (miss_logodds m) f0 /\ fle (min_logodds m) f0 /\ fle f0 (max_logodds m) /\
  integrated 2 tenth 4 m o /\ gm_get (om_grid o) c = Ret v /\ fltb v (min_logodds m) = true.
Proof. exact limits_need_signs. Qed.
Print Assumptions C40_signs_needed.

Example C40_example : signs_ok ex_lidar /\ exists o v, integrated 2 tenth 4 ex_lidar o /\
  gm_get (om_grid o) [8; 0] = Ret v /\ fltb v (miss_logodds ex_lidar) = true.
Proof. exact (conj ex_signs ex_integrated). Qed.

(** In terms of cell numbers of the expanded map [g1]. *)
Theorem C41_update : forall fuel of oo m g o cloud g', is_order of -> is_order oo -> storage_ok (gm_data g) ->
  integrate_point_cloud fuel of oo m g o cloud = Ret g' ->
  exists g1 free occ,
    gm_expand_bounds g (pc_bounds cloud) f0 = Ret g1 /\
    cast_rays fuel o cloud (gm_bounds g1) (gm_resolution g1) (max_range m) = Ret (free, occ) /\
    storage_ok (gm_data g1) /\ storage_ok (gm_data g') /\ nd_shape (gm_data g') = nd_shape (gm_data g1) /\
    gm_bounds g' = gm_bounds g1 /\ gm_resolution g' = gm_resolution g /\ gm_tile_size g' = gm_tile_size g /\
    gm_track_changes g' = gm_track_changes g /\
    (forall c, In c occ -> exists v, gm_get g1 c = Ret v /\ gm_get g' c = Ret (fmin (fadd v (hit_logodds m)) (max_logodds m))) /\
    (forall c, In c free -> exists v, gm_get g1 c = Ret v /\ gm_get g' c = Ret (fmax (fadd v (miss_logodds m)) (min_logodds m))) /\
    (forall c, cells_in_isize c -> ~ In c occ -> ~ In c free -> gm_get g' c = gm_get g1 c) /\
    (gm_track_changes g = true -> exists l, gm_changed_cells g' = gm_changed_cells g ++ l /\ NoDup l /\ forall c, In c l <-> In c free \/ In c occ) /\
    (gm_track_changes g = false -> gm_changed_cells g' = gm_changed_cells g).
Proof. exact integrate_spec. Qed.
Print Assumptions C41_update.

(** In terms of places: the box [cb] of world cells covered before, [cb'] after. *)
Theorem C41_places : forall d r t fuel of oo m g o cloud g', map_range d r t -> reachable d r t g ->
  request_ok d r (pc_bounds cloud) -> is_order of -> is_order oo ->
  integrate_point_cloud fuel of oo m g o cloud = Ret g' ->
  exists cb cb' free occ, covers_cells d r t g cb /\ covers_cells d r t g' cb' /\
    cast_rays fuel o cloud (gm_bounds g') r (max_range m) = Ret (free, occ) /\
    (forall c, In c free \/ In c occ -> in_range (nd_shape (gm_data g')) c) /\
    (forall w, in_box cb w -> in_box cb' w) /\
    forall w, in_box cb' w -> let c := map2 Z.sub w (cmin cb') in
      exists old, ((in_box cb w -> gm_get g (map2 Z.sub w (cmin cb)) = Ret old) /\ (~ in_box cb w -> old = f0)) /\
        (In c occ -> gm_get g' c = Ret (fmin (fadd old (hit_logodds m)) (max_logodds m))) /\
        (In c free -> gm_get g' c = Ret (fmax (fadd old (miss_logodds m)) (min_logodds m))) /\
        (~ In c occ -> ~ In c free -> gm_get g' c = Ret old).
Proof. exact integrate_places. Qed.
Print Assumptions C41_places.

(** Over any sequence of clouds: a cell holds the evidence gathered at its place. *)
Theorem C41_history : forall d r t m o L, map_range d r t -> observed d r t m o L ->
  exists cb, covers_cells d r t (om_grid o) cb /\
  (forall w, in_box cb w -> gm_get (om_grid o) (map2 Z.sub w (cmin cb)) = Ret (fold_left (evidence m) (L w) f0)) /\
  (forall w, ~ in_box cb w -> L w = []).
Proof. exact observed_values. Qed.
Print Assumptions C41_history.

Example C41_example : exists o, observed 2 tenth 4 ex_lidar o log2 /\
  log2 [0; 0] = [false; false] /\ log2 [2; 0] = [true] /\ log2 [-5; 0] = [true] /\ log2 [3; 3] = [] /\
  gm_track_changes (om_grid o) = true /\ storage_ok (gm_data (om_grid o)).
Proof. exact ex_observed. Qed.

Theorem C42_order : forall fuel of oo of' oo' m g o cloud, is_order of -> is_order oo -> is_order of' -> is_order oo' ->
  storage_ok (gm_data g) ->
  same_outcome (integrate_point_cloud fuel of oo m g o cloud) (integrate_point_cloud fuel of' oo' m g o cloud).
Proof. exact integrate_order. Qed.
Print Assumptions C42_order.

Example C42_example : is_order as_is /\ is_order (@rev cell).
Proof. exact (conj as_is_order rev_order). Qed.

Theorem C43_hit : forall m g c g', storage_ok (gm_data g) -> cells_in_isize c -> is_nan (max_logodds m) = false ->
  integrate_hit m g c = Ret g' ->
  (exists v, gm_get g' c = Ret v /\ is_nan v = false) /\
  (forall c', cells_in_isize c' -> c' <> c -> gm_get g' c' = gm_get g c').
Proof. exact hit_stores. Qed.
Print Assumptions C43_hit.

Theorem C43_miss : forall m g c g', storage_ok (gm_data g) -> cells_in_isize c -> is_nan (min_logodds m) = false ->
  integrate_miss m g c = Ret g' ->
  (exists v, gm_get g' c = Ret v /\ is_nan v = false) /\
  (forall c', cells_in_isize c' -> c' <> c -> gm_get g' c' = gm_get g c').
Proof. exact miss_stores. Qed.
Print Assumptions C43_miss.

Theorem C43_history : forall d r t m o c v, is_nan (min_logodds m) = false -> is_nan (max_logodds m) = false ->
  integrated d r t m o -> gm_get (om_grid o) c = Ret v -> is_nan v = false.
Proof. exact values_not_nan. Qed.
Print Assumptions C43_history.

Example C43_example : is_nan (min_logodds ex_lidar) = false /\ is_nan (max_logodds ex_lidar) = false /\
  storage_ok (gm_data ex_small) /\ gm_get ex_small [1; 0] = Ret fnan /\
  (exists g, ofold (integrate_hit ex_lidar) ex_small [[0; 1]; [1; 0]; [0; 1]] = Ret g).
Proof. exact (conj (proj1 ex_limits) (conj (proj2 ex_limits) (conj ex_small_storage (conj eq_refl (proj1 ex_updates))))). Qed.

Theorem C44_hits : forall m cells g g' c v, fle f0 (hit_logodds m) -> storage_ok (gm_data g) ->
  Forall cells_in_isize cells -> cells_in_isize c -> gm_get g c = Ret v -> fle v (max_logodds m) ->
  ofold (integrate_hit m) g cells = Ret g' ->
  exists v', gm_get g' c = Ret v' /\ fle v v' /\ fle v' (max_logodds m) /\
  (occupied m g c = Ret true -> occupied m g' c = Ret true).
Proof. exact hits_raise. Qed.
Print Assumptions C44_hits.

Theorem C44_misses : forall m cells g g' c v, fle (miss_logodds m) f0 -> storage_ok (gm_data g) ->
  Forall cells_in_isize cells -> cells_in_isize c -> gm_get g c = Ret v -> fle (min_logodds m) v ->
  ofold (integrate_miss m) g cells = Ret g' ->
  exists v', gm_get g' c = Ret v' /\ fle v' v /\ fle (min_logodds m) v' /\
  (occupied m g c = Ret false -> occupied m g' c = Ret false).
Proof. exact misses_lower. Qed.
Print Assumptions C44_misses.

Theorem C44_occupied : forall m g c v, finite (occupied_threshold_logodds m) -> finite v -> gm_get g c = Ret v ->
  exists b, occupied m g c = Ret b /\ (b = true <-> (real (occupied_threshold_logodds m) < real v)%R).
Proof. exact occupied_iff. Qed.
Print Assumptions C44_occupied.

Example C44_example : signs_ok ex_lidar /\ storage_ok (gm_data ex_small) /\ gm_get ex_small [0; 1] = Ret f0 /\
  (exists g, ofold (integrate_hit ex_lidar) ex_small [[0; 1]; [1; 0]; [0; 1]] = Ret g) /\
  (exists g, ofold (integrate_miss ex_lidar) ex_small [[0; 1]; [1; 0]; [0; 1]] = Ret g).
Proof. exact (conj ex_signs (conj ex_small_storage (conj eq_refl ex_updates))). Qed.

Theorem C45_tracking : forall fuel of oo m g o cloud g', is_order of -> is_order oo -> storage_ok (gm_data g) ->
  integrate_point_cloud fuel of oo m g o cloud = Ret g' ->
  exists g1 free occ l, gm_expand_bounds g (pc_bounds cloud) f0 = Ret g1 /\
    cast_rays fuel o cloud (gm_bounds g1) (gm_resolution g1) (max_range m) = Ret (free, occ) /\
    gm_track_changes g' = gm_track_changes g /\ gm_changed_cells g' = gm_changed_cells g ++ l /\
    (gm_track_changes g = false -> l = []) /\
    (gm_track_changes g = true -> NoDup l /\ (forall c, In c l <-> In c free \/ In c occ) /\
       (forall c, cells_in_isize c -> gm_get g' c <> gm_get g1 c -> In c l)).
Proof. exact integrate_tracks. Qed.
Print Assumptions C45_tracking.

(** The operations that only concern the tracking. *)
Theorem C45_switches : forall (A : Type) (g : grid_map A) x,
  let same g' := gm_data g' = gm_data g /\ gm_bounds g' = gm_bounds g /\ gm_resolution g' = gm_resolution g /\ gm_tile_size g' = gm_tile_size g in
  (let g' := gm_clear_changed_cells g in same g' /\ gm_changed_cells g' = [] /\ gm_track_changes g' = gm_track_changes g) /\
  (let g' := gm_set_track_changes g x in same g' /\ gm_changed_cells g' = gm_changed_cells g /\ gm_track_changes g' = x).
Proof. exact tracking_switches. Qed.
Print Assumptions C45_switches.

Example C45_example : exists o, observed 2 tenth 4 ex_lidar o log2 /\
  log2 [0; 0] = [false; false] /\ log2 [2; 0] = [true] /\ log2 [-5; 0] = [true] /\ log2 [3; 3] = [] /\
  gm_track_changes (om_grid o) = true /\ storage_ok (gm_data (om_grid o)).
Proof. exact ex_observed. Qed.

(** Cell [2; 0] is reported for the place 2, 0; after the map has grown towards negative
    coordinates the same number stands for the place -6, 0. *)
Theorem C46_index_refuted : exists o1 o2 c, integrated 2 tenth 4 ex_lidar o1 /\
  om_integrate 50 as_is as_is o1 ex_zero ex_scan2 = Ret o2 /\
  In c (gm_changed_cells (om_grid o1)) /\ In c (gm_changed_cells (om_grid o2)) /\
  near_cell tenth [2; 0] (gm_point_from_cell (om_grid o1) c) /\ near_cell tenth [-6; 0] (gm_point_from_cell (om_grid o2) c).
Proof. exact index_moves. Qed.
Print Assumptions C46_index_refuted.

(** What does hold.  The full statement would lack the hypothesis that the new cloud does
    not reach below the lower corner of the map. *)
Theorem C46_index_partial : forall d r t fuel of oo m g o cloud g' db c, map_range d r t -> reachable d r t g ->
  is_order of -> is_order oo -> request_ok d r (pc_bounds cloud) ->
  bounds_discretized (pc_bounds cloud) r true = Ret db -> Forall2 fle (bmin (gm_bounds g)) (bmin db) ->
  in_range (nd_shape (gm_data g)) c ->
  integrate_point_cloud fuel of oo m g o cloud = Ret g' ->
  in_range (nd_shape (gm_data g')) c /\ gm_point_from_cell g' c = gm_point_from_cell g c.
Proof. exact integrate_keeps_indices. Qed.
Print Assumptions C46_index_partial.

Example C46_example : exists o db, reachable 2 tenth 4 (om_grid o) /\ in_range (nd_shape (gm_data (om_grid o))) [11; 2] /\
  bounds_discretized (pc_bounds ex_scan1) tenth true = Ret db /\ Forall2 fle (bmin (gm_bounds (om_grid o))) (bmin db).
Proof. exact ex_index_kept. Qed.

(** Exactly when: a cell number [c] of the map before stands for the place [cmin cb' + c]
    afterwards, and this is the same place if and only if the cloud reaches no cell below
    the lower corner of the map. *)
Theorem C46_exactly_partial : forall d r t fuel of oo m g cb o cloud g' db c, map_range d r t -> reachable d r t g -> covers_cells d r t g cb ->
  is_order of -> is_order oo -> request_ok d r (pc_bounds cloud) ->
  bounds_discretized (pc_bounds cloud) r true = Ret db -> in_range (nd_shape (gm_data g)) c ->
  integrate_point_cloud fuel of oo m g o cloud = Ret g' ->
  exists cb', covers_cells d r t g' cb' /\ in_range (nd_shape (gm_data g')) c /\
    near_cell r (map2 Z.add (cmin cb) c) (gm_point_from_cell g c) /\
    near_cell r (map2 Z.add (cmin cb') c) (gm_point_from_cell g' c) /\
    (gm_point_from_cell g' c = gm_point_from_cell g c <-> Forall2 Z.le (cmin cb) (cmin (cells_between r db))).
Proof. exact index_exactly. Qed.
Print Assumptions C46_exactly_partial.

Example C46_exactly_example : exists o1 o2 cb db, reachable 2 tenth 4 (om_grid o1) /\ covers_cells 2 tenth 4 (om_grid o1) cb /\
  in_range (nd_shape (gm_data (om_grid o1))) [2; 0] /\ request_ok 2 tenth (pc_bounds ex_scan2) /\
  bounds_discretized (pc_bounds ex_scan2) tenth true = Ret db /\
  om_integrate 50 as_is as_is o1 ex_zero ex_scan2 = Ret o2 /\ ~ Forall2 Z.le (cmin cb) (cmin (cells_between tenth db)).
Proof. exact ex_index_moves. Qed.

(** By the points alone: numbers keep their meaning if on every axis all points are above the lower corner (by a fifth
    of a cell), which must not be above the origin of the world; they change it if a point is below on some axis. *)
Theorem C46_points_partial : forall d r t fuel of oo m g cb o cloud g' c, map_range d r t -> reachable d r t g -> covers_cells d r t g cb ->
  is_order of -> is_order oo -> matrix_ok cloud -> nrows cloud = d -> (forall p, In p (pc_points cloud) -> Forall (within_cells (2 ^ 18) r) p) ->
  in_range (nd_shape (gm_data g)) c -> integrate_point_cloud fuel of oo m g o cloud = Ret g' ->
  let corner i := IZR (nth i (cmin cb) 0) in
  ((forall i, (i < d)%nat -> (corner i <= 0)%R /\ forall p, In p (pc_points cloud) -> ((corner i + / 5) * real r <= real (nth i p f0))%R) ->
    gm_point_from_cell g' c = gm_point_from_cell g c) /\
  (forall i p, (i < d)%nat -> In p (pc_points cloud) -> (real (nth i p f0) < (corner i - / 5) * real r)%R -> gm_point_from_cell g' c <> gm_point_from_cell g c).
Proof. exact index_points. Qed.
Print Assumptions C46_points_partial.

Example C46_points_example : exists o1 o2 o3 cb, reachable 2 tenth 4 (om_grid o1) /\ covers_cells 2 tenth 4 (om_grid o1) cb /\ cmin cb = [0; 0] /\ in_range (nd_shape (gm_data (om_grid o1))) [2; 0] /\
  om_integrate 50 as_is as_is o1 ex_zero ex_scan2 = Ret o2 /\ matrix_ok ex_scan2 /\ nrows ex_scan2 = 2%nat /\ (forall p, In p (pc_points ex_scan2) -> Forall (within_cells (2 ^ 18) tenth) p) /\
  (exists p, In p (pc_points ex_scan2) /\ (real (nth 0 p f0) < (0 - / 5) * real tenth)%R) /\
  om_integrate 50 as_is as_is o1 ex_zero ix_cloud = Ret o3 /\ matrix_ok ix_cloud /\ nrows ix_cloud = 2%nat /\ (forall p, In p (pc_points ix_cloud) -> Forall (within_cells (2 ^ 18) tenth) p) /\
  (forall p, In p (pc_points ix_cloud) -> forall i, (i < 2)%nat -> ((0 + / 5) * real tenth <= real (nth i p f0))%R).
Proof. exact ix_case. Qed.

(** A point near the upper border of the map. *)
Theorem C47_no_panic_refuted : exists o0 cloud, om_new 2 ex_lidar tenth 4 = Ret o0 /\ request_ok 2 tenth (pc_bounds cloud) /\
  Forall (Forall finite) (pc_points cloud) /\ inside (pc_bounds cloud) ex_zero /\ signs_ok ex_lidar /\
  forall of oo, is_order of -> is_order oo -> om_integrate 50 of oo o0 ex_zero cloud = Panic.
Proof. exact edge_panics. Qed.
Print Assumptions C47_no_panic_refuted.

(** A sensor behind the points: the map is grown for the points, not for the sensor. *)
Theorem C47_sensor_outside_refuted : exists o0 o, om_new 2 ex_lidar tenth 4 = Ret o0 /\ Forall finite o /\
  Forall (within_cells (2 ^ 18) tenth) o /\ request_ok 2 tenth (pc_bounds ex_scan1) /\
  forall of oo, is_order of -> is_order oo -> om_integrate 50 of oo o0 o ex_scan1 = Panic.
Proof. exact behind_panics. Qed.
Print Assumptions C47_sensor_outside_refuted.

(** A beam that ends on a border between cells: it walks past its end cell, and out of the map
    long before it reaches the maximum range.  Sensor and points are clear of the upper border. *)
Theorem C47_missed_end_refuted : exists o0, om_new 2 ex_lidar tenth 4 = Ret o0 /\ request_ok 2 tenth (pc_bounds corner_scan) /\
  inside (pc_bounds corner_scan) corner_sensor /\
  (forall p, p = corner_sensor \/ In p (pc_points corner_scan) -> Forall2 (axis_safe tenth) p (bmax (pc_bounds corner_scan))) /\
  forall of oo, is_order of -> is_order oo -> om_integrate 2000 of oo o0 corner_sensor corner_scan = Panic.
Proof. exact corner_panics. Qed.
Print Assumptions C47_missed_end_refuted.

(** What does hold.  The full statement would only ask for finite points and origin; here
    the sensor is in the expanded map, every point is clear of the border (see C25), and
    the rays without length limit reach their ends. *)
Theorem C47_no_panic_partial : forall d r t fuel of oo m g g1 o cloud, map_range d r t -> reachable d r t g ->
  is_order of -> is_order oo -> matrix_ok cloud -> nrows cloud = d -> length o = d -> request_ok d r (pc_bounds cloud) ->
  gm_expand_bounds g (pc_bounds cloud) f0 = Ret g1 ->
  in_range (nd_shape (gm_data g1)) (gm_cell_from_point g1 o) ->
  (forall p, In p (pc_points cloud) -> Forall finite p /\ Forall2 (axis_safe r) p (bmax (pc_bounds cloud)) /\
     exists rc c, cast_ray F32A fuel o p (bmin (gm_bounds g1)) r f0 = Ret (rc, Some c)) ->
  exists g', integrate_point_cloud fuel of oo m g o cloud = Ret g'.
Proof. exact integrate_returns. Qed.
Print Assumptions C47_no_panic_partial.

(** The rays reach their ends when they are in range and end an eighth of a cell away
    from the borders of the cells. *)
Theorem C47_in_range_partial : forall d r t fuel of oo m g g1 o cloud, map_range d r t -> reachable d r t g ->
  is_order of -> is_order oo -> matrix_ok cloud -> nrows cloud = d -> length o = d -> request_ok d r (pc_bounds cloud) ->
  gm_expand_bounds g (pc_bounds cloud) f0 = Ret g1 ->
  in_range (nd_shape (gm_data g1)) (gm_cell_from_point g1 o) ->
  (forall p, In p (pc_points cloud) -> Forall2 (axis_safe r) p (bmax (pc_bounds cloud)) /\
     ray_short r o p (bmin (gm_bounds g1)) /\ world_clear (/ 8)%R r o p) ->
  (3072 <= fuel)%nat -> exists g', integrate_point_cloud fuel of oo m g o cloud = Ret g'.
Proof. exact integrate_in_range. Qed.
Print Assumptions C47_in_range_partial.

(** A cloud is an acceptable request when its points are near enough. *)
Theorem C47_request : forall d r cloud, res_ok r -> matrix_ok cloud -> nrows cloud = d ->
  (forall p, In p (pc_points cloud) -> Forall (within_cells (2 ^ 18) r) p) -> request_ok d r (pc_bounds cloud).
Proof. exact cloud_request. Qed.
Print Assumptions C47_request.

Example C47_example : exists g g1 : grid_map f32, reachable 2 tenth 4 g /\ gm_expand_bounds g (pc_bounds ex_scan1) f0 = Ret g1 /\
  in_range (nd_shape (gm_data g1)) (gm_cell_from_point g1 ex_zero) /\
  forall p, In p (pc_points ex_scan1) -> Forall finite p /\ Forall2 (axis_safe tenth) p (bmax (pc_bounds ex_scan1)) /\
     exists rc c, cast_ray F32A 50 ex_zero p (bmin (gm_bounds g1)) tenth f0 = Ret (rc, Some c).
Proof. exact ex_returns. Qed.

Example C47_in_range_example : exists g g1 : grid_map f32, reachable 2 tenth 4 g /\ gm_expand_bounds g (pc_bounds ex_scan1) f0 = Ret g1 /\
  in_range (nd_shape (gm_data g1)) (gm_cell_from_point g1 ex_zero) /\
  forall p, In p (pc_points ex_scan1) -> Forall2 (axis_safe tenth) p (bmax (pc_bounds ex_scan1)) /\
     ray_short tenth ex_zero p (bmin (gm_bounds g1)) /\ world_clear (/ 8)%R tenth ex_zero p.
Proof. exact ex_in_range. Qed.

(** What one scan does to the world: a cell in which a beam ends gets a hit, a cell that
    beams only pass gets a miss, and every other cell keeps its value. Beams and cells
    are decided up to an eighth of a cell, limits up to a few cells. *)
Theorem C64_scan : forall d r t fuel of oo m g g1 o cloud, map_range d r t -> reachable d r t g ->
  is_order of -> is_order oo -> matrix_ok cloud -> nrows cloud = d -> length o = d -> request_ok d r (pc_bounds cloud) ->
  gm_expand_bounds g (pc_bounds cloud) f0 = Ret g1 ->
  in_range (nd_shape (gm_data g1)) (gm_cell_from_point g1 o) ->
  (forall p, In p (pc_points cloud) -> Forall2 (axis_safe r) p (bmax (pc_bounds cloud)) /\
     ray_short r o p (bmin (gm_bounds g1)) /\ world_clear (/ 8)%R r o p) ->
  (3072 <= fuel)%nat -> limit_near (max_range m) r ->
  let beam p u := seg (map real o) (map real p) u in
  let length_of p := dist (map real p) (map real o) in
  exists g' cb cb', integrate_point_cloud fuel of oo m g o cloud = Ret g' /\
    covers_cells d r t g cb /\ covers_cells d r t g' cb' /\ (forall w, in_box cb w -> in_box cb' w) /\
    forall w, length w = d ->
      (forall p, In p (pc_points cloud) -> near_world (- / 8)%R r w (map real p) -> in_limit (max_range m) r (length_of p) ->
         in_box cb' w /\ exists old, world_value g cb f0 w old /\
           gm_get g' (map2 Z.sub w (cmin cb')) = Ret (evidence m old true)) /\
      (forall p u, In p (pc_points cloud) -> (0 <= u <= 1)%R -> near_world (- / 8)%R r w (beam p u) ->
         in_limit (max_range m) r (u * length_of p)%R ->
         (forall q, In q (pc_points cloud) -> ~ near_world (/ 8)%R r w (map real q)) ->
         in_box cb' w /\ exists old, world_value g cb f0 w old /\
           gm_get g' (map2 Z.sub w (cmin cb')) = Ret (evidence m old false)) /\
      (in_box cb' w -> (forall p u, In p (pc_points cloud) -> (0 <= u <= 1)%R -> ~ near_world (/ 8)%R r w (beam p u)) ->
         exists old, world_value g cb f0 w old /\ gm_get g' (map2 Z.sub w (cmin cb')) = Ret old) /\
      (in_box cb' w -> fltb f0 (max_range m) = true ->
         (real (max_range m) + 3 * real r < dist (map (fun k => IZR k * real r) w) (map real o))%R ->
         exists old, world_value g cb f0 w old /\ gm_get g' (map2 Z.sub w (cmin cb')) = Ret old).
Proof. exact scan_world. Qed.
Print Assumptions C64_scan.

Example C64_example :
  (exists g g1 : grid_map f32, reachable 2 tenth 4 g /\ gm_expand_bounds g (pc_bounds ex_scan1) f0 = Ret g1 /\
  in_range (nd_shape (gm_data g1)) (gm_cell_from_point g1 ex_zero) /\
  forall p, In p (pc_points ex_scan1) -> Forall2 (axis_safe tenth) p (bmax (pc_bounds ex_scan1)) /\
     ray_short tenth ex_zero p (bmin (gm_bounds g1)) /\ world_clear (/ 8)%R tenth ex_zero p) /\
  limit_near (max_range ex_lidar) tenth /\
  (let p := [f32_lit 22 100; f0] in In p (pc_points ex_scan1) /\
   near_world (- / 8)%R tenth [2; 0] (map real p) /\ in_limit (max_range ex_lidar) tenth (dist (map real p) (map real ex_zero)) /\
   near_world (- / 8)%R tenth [1; 0] (seg (map real ex_zero) (map real p) (/ 2)%R)) /\
  (forall q, In q (pc_points ex_scan1) -> ~ near_world (/ 8)%R tenth [1; 0] (map real q)) /\
  (forall q u, In q (pc_points ex_scan1) -> (0 <= u <= 1)%R -> ~ near_world (/ 8)%R tenth [3; 3] (seg (map real ex_zero) (map real q) u)) /\
  (limit_near tenth tenth /\ fltb f0 tenth = true /\ (real tenth + 3 * real tenth < dist (map (fun k => IZR k * real tenth) [3; 3]%Z) (map real ex_zero))%R).
Proof. exact (conj ex_in_range ex_scan_world). Qed.

(** After any sequence of scans the value of a cell is the evidence of the scans added up
    in order. *)
Theorem C65_values : forall d r t m o L w vs, map_range d r t -> limit_near (max_range m) r -> scanned d r t m o L ->
  length w = d -> Forall2 (says (max_range m) r w) L vs ->
  exists cb, covers_cells d r t (om_grid o) cb /\ world_value (om_grid o) cb f0 w (fold_left (observe m) vs f0) /\
    (Exists (fun v => v <> None) vs -> in_box cb w).
Proof. exact scans_values. Qed.
Print Assumptions C65_values.

(** The next scan in range never fails. *)
Theorem C65_continues : forall d r t m o L fuel of oo origin cloud, map_range d r t -> limit_near (max_range m) r ->
  scanned d r t m o L -> is_order of -> is_order oo -> scan_ok d r (om_grid o) origin cloud -> (3072 <= fuel)%nat ->
  exists o', om_integrate fuel of oo o origin cloud = Ret o'.
Proof. exact scans_continue. Qed.
Print Assumptions C65_continues.

Example C65_example : limit_near (max_range ex_lidar) tenth /\ exists o, scanned 2 tenth 4 ex_lidar o ex_twice /\
  Forall2 (says (max_range ex_lidar) tenth [2; 0]) ex_twice [Some true; Some true] /\
  Forall2 (says (max_range ex_lidar) tenth [1; 0]) ex_twice [Some false; Some false] /\
  Forall2 (says (max_range ex_lidar) tenth [3; 3]) ex_twice [None; None].
Proof. exact (conj (proj1 ex_scan_world) ex_scanned). Qed.

Theorem C66_static : forall d r t m o L w vs, map_range d r t -> limit_near (max_range m) r -> signs_ok m -> scanned d r t m o L ->
  length w = d -> Forall2 (says (max_range m) r w) L vs -> Exists (fun v => v <> None) vs ->
  exists cb, covers_cells d r t (om_grid o) cb /\ in_box cb w /\
    (Forall (fun v => v = None \/ v = Some true) vs ->
       fltb (occupied_threshold_logodds m) (evidence m f0 true) = true -> om_occupied o (map2 Z.sub w (cmin cb)) = Ret true) /\
    (Forall (fun v => v = None \/ v = Some false) vs ->
       fle f0 (occupied_threshold_logodds m) -> om_occupied o (map2 Z.sub w (cmin cb)) = Ret false).
Proof. exact static_scene. Qed.
Print Assumptions C66_static.

(** The default noise model has the signs and thresholds that C66 asks for. *)
Theorem C66_default : forall ln, ln_special ln -> ln_monotone ln -> (forall x, fltb f1 x = true -> fltb f0 (ln x) = true) ->
  exists m, lidar_default ln = Ret m /\ signs_ok m /\ fltb (occupied_threshold_logodds m) (evidence m f0 true) = true /\
    fle f0 (occupied_threshold_logodds m) /\ limit_near (max_range m) DEFAULT_RESOLUTION.
Proof. exact default_detects. Qed.
Print Assumptions C66_default.

Example C66_example : (ln_special coarse_ln /\ ln_monotone coarse_ln /\ forall x, fltb f1 x = true -> fltb f0 (coarse_ln x) = true) /\
  signs_ok ex_lidar /\ fltb (occupied_threshold_logodds ex_lidar) (evidence ex_lidar f0 true) = true /\
  fle f0 (occupied_threshold_logodds ex_lidar) /\ limit_near (max_range ex_lidar) tenth /\
  exists o, scanned 2 tenth 4 ex_lidar o ex_twice /\
    Forall2 (says (max_range ex_lidar) tenth [2; 0]) ex_twice [Some true; Some true] /\
    Forall2 (says (max_range ex_lidar) tenth [1; 0]) ex_twice [Some false; Some false] /\
    Forall2 (says (max_range ex_lidar) tenth [3; 3]) ex_twice [None; None].
Proof. exact (conj (conj coarse_ln_special (conj coarse_ln_monotone coarse_ln_positive)) (conj ex_signs (conj eq_refl (conj eq_refl (conj (proj1 ex_scan_world) ex_scanned))))). Qed.
