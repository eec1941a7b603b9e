(** C97: maps of a world with walls. *)
From Coq Require Import ZArith List Bool Reals Permutation.
From Flocq Require Import Core BinarySingleNaN.
From Verif Require Import Base F32 Arith Geom NdArray GridMap RayCaster NoiseModel Spec SpecMap SpecNoise SpecOdds SpecBack SpecMeet SpecNear SpecWorld SpecWall OddsProofs WallProofs ExamplesSame ExamplesMeet ExamplesNear ExamplesWorld ExamplesWall.
Open Scope Z_scope.

(** The value of a cell is that of as many hits, for a wall, or misses, for a free cell, as there are scans that hit or pass it. *)
Theorem C97_values : forall d r t m o L wall, map_range d r t -> fltb f0 (max_range m) = true -> finite (max_range m) -> (real (max_range m) <= 1048576 * real r)%R ->
  recorded d r t m o L -> Forall (sees d (real (max_range m)) (real r) wall) L -> exists cb, covers_cells d r t (om_grid o) cb /\
    forall w vs, length w = d -> Forall2 (verdict d (real (max_range m)) (real r) w) L vs ->
      (wall w -> world_value (om_grid o) cb f0 w (after m true (seen true vs))) /\ (~ wall w -> world_value (om_grid o) cb f0 w (after m false (seen false vs))) /\
      (Exists (fun v => v <> None) vs -> in_box cb w).
Proof. exact walled_values. Qed.
Print Assumptions C97_values.

(** A cell is occupied exactly if a scan hits it; then it is a wall.  One hit has to exceed the threshold. *)
Theorem C97_occupied : forall d r t m o L wall, map_range d r t -> fltb f0 (max_range m) = true -> finite (max_range m) -> (real (max_range m) <= 1048576 * real r)%R ->
  signs_ok m -> fle f0 (occupied_threshold_logodds m) -> fltb (occupied_threshold_logodds m) (evidence m f0 true) = true ->
  recorded d r t m o L -> Forall (sees d (real (max_range m)) (real r) wall) L -> exists cb, covers_cells d r t (om_grid o) cb /\
    forall w, length w = d ->
      ((exists s, In s L /\ scan_hits d (real (max_range m)) (real r) s w) -> wall w /\ in_box cb w) /\
      (in_box cb w -> exists b, om_occupied o (map2 Z.sub w (cmin cb)) = Ret b /\ (b = true <-> exists s, In s L /\ scan_hits d (real (max_range m)) (real r) s w)).
Proof. exact walled_occupied. Qed.
Print Assumptions C97_occupied.

(** The scans of C96 in a world with three walls. *)
Example C97_occupied_example : exists o, map_range 3 f1 2 /\ recorded 3 f1 2 sm_lidar o [wd_1; wd_2] /\ Forall (sees 3 (real (max_range sm_lidar)) (real f1) wl_walls) [wd_1; wd_2] /\
  (signs_ok sm_lidar /\ fle f0 (occupied_threshold_logodds sm_lidar) /\ fltb (occupied_threshold_logodds sm_lidar) (evidence sm_lidar f0 true) = true) /\
  (gm_get (om_grid o) [4; 0; 1] = Ret (f32_lit 85 100) /\ gm_get (om_grid o) [0; 0; 1] = Ret (f32_lit 85 100) /\ gm_get (om_grid o) [2; 0; 0] = Ret (f32_lit (-8) 10) /\ gm_get (om_grid o) [4; 0; 0] = Ret (f32_lit (-4) 10)).
Proof. exact wl_first. Qed.

(** The order in which the scans are taken does not matter. *)
Theorem C97_order : forall d r t t' m o o' L L' wall, map_range d r t -> map_range d r t' -> fltb f0 (max_range m) = true -> finite (max_range m) -> (real (max_range m) <= 1048576 * real r)%R ->
  recorded d r t m o L -> recorded d r t' m o' L' -> Permutation L L' -> Forall (sees d (real (max_range m)) (real r) wall) L ->
  exists cb cb', covers_cells d r t (om_grid o) cb /\ covers_cells d r t' (om_grid o') cb' /\
    forall w, length w = d -> exists v, world_value (om_grid o) cb f0 w v /\ world_value (om_grid o') cb' f0 w v.
Proof. exact walled_order. Qed.
Print Assumptions C97_order.

(** The scans of the last example in the other order. *)
Example C97_order_example : exists o, recorded 3 f1 4 sm_lidar o [wd_2; wd_1] /\ (gm_get (om_grid o) [6; 0; 5] = Ret (f32_lit 85 100) /\ gm_get (om_grid o) [2; 0; 5] = Ret (f32_lit 85 100)).
Proof. exact wl_second. Qed.

(** The scans [L0] may have been taken in any other world: enough scans [L1] of this one put the map right. *)
Theorem C97_changed : forall d r t m o L0 L1 wall, map_range d r t -> fltb f0 (max_range m) = true -> finite (max_range m) -> (real (max_range m) <= 1048576 * real r)%R ->
  signs_ok m -> moderate_model m -> recorded d r t m o (L0 ++ L1) -> Forall (sees d (real (max_range m)) (real r) wall) L1 ->
  let thr := real (occupied_threshold_logodds m) in
  exists cb, covers_cells d r t (om_grid o) cb /\ forall w vs, length w = d -> Forall2 (verdict d (real (max_range m)) (real r) w) L1 vs ->
    (~ wall w -> (1 <= seen false vs)%nat -> counts m (- real (miss_logodds m)) -> (real (min_logodds m) <= thr)%R ->
     (real (max_logodds m) - thr <= INR (seen false vs) * (1023 / 1024 * - real (miss_logodds m)))%R -> in_box cb w /\ om_occupied o (map2 Z.sub w (cmin cb)) = Ret false) /\
    (wall w -> (1 <= seen true vs)%nat -> counts m (real (hit_logodds m)) -> (thr < real (max_logodds m))%R ->
     (thr - real (min_logodds m) < INR (seen true vs) * (1023 / 1024 * real (hit_logodds m)))%R -> in_box cb w /\ om_occupied o (map2 Z.sub w (cmin cb)) = Ret true).
Proof. exact walled_changed. Qed.
Print Assumptions C97_changed.

(** A wall two cells away that is taken down or put up, after any number of scans. *)
Example C97_changed_example : ((map_range 3 f1 2 /\ fltb f0 (max_range wl_lidar) = true /\ finite (max_range wl_lidar) /\ 4 <= real (max_range wl_lidar) <= 1048576 * real f1)%R /\ signs_ok wl_lidar /\ moderate_model wl_lidar /\
   counts wl_lidar (- real (miss_logodds wl_lidar)) /\ counts wl_lidar (real (hit_logodds wl_lidar)) /\
   (let thr := real (occupied_threshold_logodds wl_lidar) in real (min_logodds wl_lidar) <= thr /\ real (max_logodds wl_lidar) - thr <= INR 9 * (1023 / 1024 * - real (miss_logodds wl_lidar)) /\
    thr < real (max_logodds wl_lidar) /\ thr - real (min_logodds wl_lidar) < INR 3 * (1023 / 1024 * real (hit_logodds wl_lidar)))%R) /\
  (forall b i j, (exists o, recorded 3 f1 2 wl_lidar o (wl_history (repeat (negb b) i) ++ map wl_scan (repeat b j))) /\
   Forall (sees 3 (real (max_range wl_lidar)) (real f1) (wl_wall b)) (map wl_scan (repeat b j)) /\
   Forall2 (verdict 3 (real (max_range wl_lidar)) (real f1) [2; 0; 0]) (map wl_scan (repeat b j)) (repeat (Some b) j)) /\
  seen false (repeat (Some false) 9) = 9%nat /\ seen true (repeat (Some true) 3) = 3%nat.
Proof. exact (conj wl_numbers wl_model). Qed.

(** With the default probabilities: C97_occupied holds, and nine scans that pass a cell, or three that hit it, put the map right. *)
Theorem C97_default : forall f, ln_accurate f -> exists m, lidar_default f = Ret m /\ max_range m = DEFAULT_MAX_RANGE /\
  (signs_ok m /\ fle f0 (occupied_threshold_logodds m) /\ fltb (occupied_threshold_logodds m) (evidence m f0 true) = true) /\
  forall d r t o L0 L1 wall, map_range d r t -> (real DEFAULT_MAX_RANGE <= 1048576 * real r)%R -> recorded d r t m o (L0 ++ L1) -> Forall (sees d (real DEFAULT_MAX_RANGE) (real r) wall) L1 ->
  exists cb, covers_cells d r t (om_grid o) cb /\ forall w vs, length w = d -> Forall2 (verdict d (real DEFAULT_MAX_RANGE) (real r) w) L1 vs ->
    (~ wall w -> (9 <= seen false vs)%nat -> in_box cb w /\ om_occupied o (map2 Z.sub w (cmin cb)) = Ret false) /\
    (wall w -> (3 <= seen true vs)%nat -> in_box cb w /\ om_occupied o (map2 Z.sub w (cmin cb)) = Ret true).
Proof. exact walled_default. Qed.
Print Assumptions C97_default.

Example C97_default_example : ln_accurate near_ln /\ map_range 3 f1 2 /\ (real DEFAULT_MAX_RANGE <= 1048576 * real f1)%R /\ forall m b i j, max_range m = DEFAULT_MAX_RANGE ->
  (exists o, recorded 3 f1 2 m o (wl_history (repeat (negb b) i) ++ map wl_scan (repeat b j))) /\
  Forall (sees 3 (real DEFAULT_MAX_RANGE) (real f1) (wl_wall b)) (map wl_scan (repeat b j)) /\
  Forall2 (verdict 3 (real DEFAULT_MAX_RANGE) (real f1) [2; 0; 0]) (map wl_scan (repeat b j)) (repeat (Some b) j).
Proof. exact wl_default. Qed.
