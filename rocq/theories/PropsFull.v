(** C99: maps of a sensor without a length limit. *)
From Coq Require Import ZArith List Bool Reals Permutation.
From Flocq Require Import Core BinarySingleNaN.
From Verif Require Import Base F32 Arith Geom NdArray GridMap RayCaster NoiseModel Spec SpecMap SpecNoise SpecOdds SpecBack SpecMeet SpecNear SpecWorld SpecWall SpecFull OddsProofs FullProofs ExamplesNoise ExamplesSame ExamplesMeet ExamplesNear ExamplesWorld ExamplesWall ExamplesFull.
Open Scope Z_scope.

(** Every scan says exactly one thing about a cell, and the map holds the value that these observations give in turn. *)
Theorem C99_values : forall d r t m o L, map_range d r t -> fltb f0 (max_range m) = false -> full_recorded d r t m o L -> exists cb, covers_cells d r t (om_grid o) cb /\
  forall w, length w = d -> exists vs, Forall2 (full_verdict d (real r) w) L vs /\ (forall vs', Forall2 (full_verdict d (real r) w) L vs' -> vs' = vs) /\
    world_value (om_grid o) cb f0 w (fold_left (observe m) vs f0) /\ (Exists (fun v => v <> None) vs -> in_box cb w).
Proof. exact full_cells. Qed.
Print Assumptions C99_values.

(** Two recordings of the same scans. *)
Theorem C99_same : forall d r t t' m o o' L, map_range d r t -> map_range d r t' -> fltb f0 (max_range m) = false ->
  full_recorded d r t m o L -> full_recorded d r t' m o' L -> exists cb cb', covers_cells d r t (om_grid o) cb /\ covers_cells d r t' (om_grid o') cb' /\
    forall w, length w = d -> exists v, world_value (om_grid o) cb f0 w v /\ world_value (om_grid o') cb' f0 w v.
Proof. exact full_same. Qed.
Print Assumptions C99_same.

(** The scans of C96 without a limit: now the far cell [4; 0; 0] is hit, in both maps. *)
Example C99_same_example : (exists o, full_recorded 3 f1 2 fu_lidar o [wd_1; wd_2] /\ gm_get (om_grid o) [6; 0; 0] = Ret (f32_lit 85 100)) /\
  (exists o, full_recorded 3 f1 4 fu_lidar o [wd_1; wd_2] /\ gm_get (om_grid o) [8; 0; 4] = Ret (f32_lit 85 100)) /\ map_range 3 f1 2 /\ map_range 3 f1 4 /\ fltb f0 (max_range fu_lidar) = false.
Proof. exact fu_tiles. Qed.

(** The next scan is taken exactly if all cells it hits or passes lie in the grown map. *)
Theorem C99_taken : forall d r t m o L s fuel of oo origin cloud, map_range d r t -> fltb f0 (max_range m) = false ->
  full_recorded d r t m o L -> is_order of -> is_order oo -> full_records d r (om_grid o) s origin cloud -> (3072 <= fuel)%nat ->
  exists g1 cb, gm_expand_bounds (om_grid o) (pc_bounds cloud) f0 = Ret g1 /\ covers_cells d r t g1 cb /\
    ((exists o', om_integrate fuel of oo o origin cloud = Ret o') <-> (forall w, full_hits d (real r) s w \/ full_passes d (real r) s w -> in_box cb w)).
Proof. exact full_continues. Qed.
Print Assumptions C99_taken.

(** It is enough that the cells of the sensor and of the points do. *)
Theorem C99_ends : forall d r t m o L s fuel of oo origin cloud, map_range d r t -> fltb f0 (max_range m) = false ->
  full_recorded d r t m o L -> is_order of -> is_order oo -> full_records d r (om_grid o) s origin cloud -> (3072 <= fuel)%nat ->
  forall g1 cb, gm_expand_bounds (om_grid o) (pc_bounds cloud) f0 = Ret g1 -> covers_cells d r t g1 cb ->
  in_box cb (nearest_cell (world d) (real r) (fst s)) -> (forall q, In q (snd s) -> in_box cb (nearest_cell (world d) (real r) q)) ->
  exists o', om_integrate fuel of oo o origin cloud = Ret o'.
Proof. exact full_ends. Qed.
Print Assumptions C99_ends.

(** The second scan of the last example. *)
Example C99_ends_example : exists o1 g1 o2, full_recorded 3 f1 2 fu_lidar o1 [wd_1] /\ full_records 3 f1 (om_grid o1) wd_2 sm_b wd_a2 /\ om_integrate 3072 as_is as_is o1 sm_b wd_a2 = Ret o2 /\
  full_recorded 3 f1 2 fu_lidar o2 [wd_1; wd_2] /\
  (gm_get (om_grid o2) [4; 0; 1] = Ret (f32_lit 85 100) /\ gm_get (om_grid o2) [0; 0; 1] = Ret (f32_lit 85 100) /\ gm_get (om_grid o2) [6; 0; 0] = Ret (f32_lit 85 100) /\ gm_get (om_grid o2) [5; 0; 0] = Ret (f32_lit (-4) 10)) /\
  gm_expand_bounds (om_grid o1) (pc_bounds wd_a2) f0 = Ret g1 /\
  exists cb, covers_cells 3 f1 2 g1 cb /\ in_box cb (nearest_cell (world 3) (real f1) (fst wd_2)) /\ (forall q, In q (snd wd_2) -> in_box cb (nearest_cell (world 3) (real f1) q)).
Proof. exact fu_first. Qed.

(** A cell is occupied exactly if a scan hits it; then it is a wall.  One hit has to exceed the threshold. *)
Theorem C99_occupied : forall d r t m o L wall, map_range d r t -> fltb f0 (max_range m) = false ->
  signs_ok m -> fle f0 (occupied_threshold_logodds m) -> fltb (occupied_threshold_logodds m) (evidence m f0 true) = true ->
  full_recorded d r t m o L -> Forall (full_sees d (real r) wall) L -> exists cb, covers_cells d r t (om_grid o) cb /\
    forall w, length w = d ->
      ((exists s, In s L /\ full_hits d (real r) s w) -> wall w /\ in_box cb w) /\
      (in_box cb w -> exists b, om_occupied o (map2 Z.sub w (cmin cb)) = Ret b /\ (b = true <-> exists s, In s L /\ full_hits d (real r) s w)).
Proof. exact full_occupied. Qed.
Print Assumptions C99_occupied.

(** In the world of C97 the wall at [4; 0; 0] is found. *)
Example C99_occupied_example : exists o, map_range 3 f1 2 /\ fltb f0 (max_range fu_lidar) = false /\ full_recorded 3 f1 2 fu_lidar o [wd_1; wd_2] /\ Forall (full_sees 3 (real f1) wl_walls) [wd_1; wd_2] /\
  (signs_ok fu_lidar /\ fle f0 (occupied_threshold_logodds fu_lidar) /\ fltb (occupied_threshold_logodds fu_lidar) (evidence fu_lidar f0 true) = true) /\ gm_get (om_grid o) [6; 0; 0] = Ret (f32_lit 85 100).
Proof. exact fu_walls. Qed.

(** The order in which the scans are taken does not matter. *)
Theorem C99_order : forall d r t t' m o o' L L' wall, map_range d r t -> map_range d r t' -> fltb f0 (max_range m) = false ->
  full_recorded d r t m o L -> full_recorded d r t' m o' L' -> Permutation L L' -> Forall (full_sees d (real r) wall) L ->
  exists cb cb', covers_cells d r t (om_grid o) cb /\ covers_cells d r t' (om_grid o') cb' /\
    forall w, length w = d -> exists v, world_value (om_grid o) cb f0 w v /\ world_value (om_grid o') cb' f0 w v.
Proof. exact full_order. Qed.
Print Assumptions C99_order.

Example C99_order_example : exists o, full_recorded 3 f1 4 fu_lidar o [wd_2; wd_1] /\ (gm_get (om_grid o) [6; 0; 5] = Ret (f32_lit 85 100) /\ gm_get (om_grid o) [8; 0; 4] = Ret (f32_lit 85 100)).
Proof. exact fu_third. Qed.

(** The scans [L0] may have been taken in any other world: enough scans [L1] of this one put the map right. *)
Theorem C99_changed : forall d r t m o L0 L1 wall, map_range d r t -> fltb f0 (max_range m) = false -> signs_ok m -> moderate_model m ->
  full_recorded d r t m o (L0 ++ L1) -> Forall (full_sees d (real r) wall) L1 ->
  let thr := real (occupied_threshold_logodds m) in
  exists cb, covers_cells d r t (om_grid o) cb /\ forall w vs, length w = d -> Forall2 (full_verdict d (real r) w) L1 vs ->
    (~ wall w -> (1 <= seen false vs)%nat -> counts m (- real (miss_logodds m)) -> (real (min_logodds m) <= thr)%R ->
     (real (max_logodds m) - thr <= INR (seen false vs) * (1023 / 1024 * - real (miss_logodds m)))%R -> in_box cb w /\ om_occupied o (map2 Z.sub w (cmin cb)) = Ret false) /\
    (wall w -> (1 <= seen true vs)%nat -> counts m (real (hit_logodds m)) -> (thr < real (max_logodds m))%R ->
     (thr - real (min_logodds m) < INR (seen true vs) * (1023 / 1024 * real (hit_logodds m)))%R -> in_box cb w /\ om_occupied o (map2 Z.sub w (cmin cb)) = Ret true).
Proof. exact full_changed. Qed.
Print Assumptions C99_changed.

(** A wall two cells away that is taken down or put up, after any number of scans. *)
Example C99_changed_example : (map_range 3 f1 2 /\ fltb f0 (max_range fu_lidar) = false /\ signs_ok fu_lidar /\ moderate_model fu_lidar /\
   counts fu_lidar (- real (miss_logodds fu_lidar)) /\ counts fu_lidar (real (hit_logodds fu_lidar)) /\
   (let thr := real (occupied_threshold_logodds fu_lidar) in real (min_logodds fu_lidar) <= thr /\ real (max_logodds fu_lidar) - thr <= INR 9 * (1023 / 1024 * - real (miss_logodds fu_lidar)) /\
    thr < real (max_logodds fu_lidar) /\ thr - real (min_logodds fu_lidar) < INR 3 * (1023 / 1024 * real (hit_logodds fu_lidar)))%R) /\
  (forall b i j, (exists o, full_recorded 3 f1 2 fu_lidar o (wl_history (repeat (negb b) i) ++ map wl_scan (repeat b j))) /\
   Forall (full_sees 3 (real f1) (wl_wall b)) (map wl_scan (repeat b j)) /\ Forall2 (full_verdict 3 (real f1) [2; 0; 0]) (map wl_scan (repeat b j)) (repeat (Some b) j)).
Proof. exact (conj fu_numbers fu_changed). Qed.

(** A limit that no beam reaches is no limit. *)
Theorem C99_limit : forall d r t t' m o o' L x, map_range d r t -> map_range d r t' ->
  fltb f0 (max_range m) = true -> finite (max_range m) -> (real (max_range m) <= 1048576 * real r)%R -> fltb f0 x = false ->
  recorded d r t m o L -> Forall (all_arrive d (real (max_range m)) (real r)) L -> full_recorded d r t' (with_limit m x) o' L ->
  exists cb cb', covers_cells d r t (om_grid o) cb /\ covers_cells d r t' (om_grid o') cb' /\
    forall w, length w = d -> exists v, world_value (om_grid o) cb f0 w v /\ world_value (om_grid o') cb' f0 w v.
Proof. exact full_limit. Qed.
Print Assumptions C99_limit.

(** A limit of 2^20 cells; without it the recordings of the other examples. *)
Example C99_limit_example : exists o, recorded 3 f1 2 fu_far o [wd_1; wd_2] /\ Forall (all_arrive 3 (real (max_range fu_far)) (real f1)) [wd_1; wd_2] /\
  (fltb f0 (max_range fu_far) = true /\ finite (max_range fu_far) /\ real (max_range fu_far) <= 1048576 * real f1)%R /\ with_limit fu_far f0 = fu_lidar.
Proof. exact fu_limit. Qed.
