(** C96: the map of a recording is that of the world it was taken in. *)
From Coq Require Import ZArith List Bool Reals.
From Flocq Require Import Core BinarySingleNaN.
From Verif Require Import Base F32 Arith Geom NdArray GridMap RayCaster NoiseModel Spec SpecMap SpecNoise SpecBack SpecMeet SpecNear SpecWorld WorldMapProofs ExamplesNoise ExamplesSame ExamplesMeet ExamplesNear ExamplesWorld.
Open Scope Z_scope.

(** Each scan says one thing about each cell of the world, and the cell holds what the scans say, one after the other. *)
Theorem C96_values : forall d r t m o L, map_range d r t -> fltb f0 (max_range m) = true -> finite (max_range m) -> (real (max_range m) <= 1048576 * real r)%R ->
  recorded d r t m o L -> exists cb, covers_cells d r t (om_grid o) cb /\
    forall w, length w = d -> exists vs, Forall2 (verdict d (real (max_range m)) (real r) w) L vs /\ (forall vs', Forall2 (verdict d (real (max_range m)) (real r) w) L vs' -> vs' = vs) /\
      world_value (om_grid o) cb f0 w (fold_left (observe m) vs f0) /\ (Exists (fun v => v <> None) vs -> in_box cb w).
Proof. exact recorded_cells. Qed.
Print Assumptions C96_values.

Example C96_values_example : exists o1 o2, recorded 3 f1 2 sm_lidar o1 [wd_1] /\ records 3 (max_range sm_lidar) f1 (om_grid o1) wd_2 sm_b wd_a2 /\ om_integrate 3072 as_is as_is o1 sm_b wd_a2 = Ret o2 /\
  recorded 3 f1 2 sm_lidar o2 [wd_1; wd_2] /\
  (gm_get (om_grid o2) [4; 0; 1] = Ret (f32_lit 85 100) /\ gm_get (om_grid o2) [0; 0; 1] = Ret (f32_lit 85 100) /\ gm_get (om_grid o2) [2; 0; 0] = Ret (f32_lit (-8) 10) /\ gm_get (om_grid o2) [4; 0; 0] = Ret (f32_lit (-4) 10)).
Proof. exact wd_first. Qed.

(** Recordings of the same scans, with other rounding, other tile size, other orders of iteration, leave the same value in every cell of the world. *)
Theorem C96_same : forall d r t t' m o o' L, map_range d r t -> map_range d r t' -> fltb f0 (max_range m) = true -> finite (max_range m) -> (real (max_range m) <= 1048576 * real r)%R ->
  recorded d r t m o L -> recorded d r t' m o' L -> exists cb cb', covers_cells d r t (om_grid o) cb /\ covers_cells d r t' (om_grid o') cb' /\
    forall w, length w = d -> exists v, world_value (om_grid o) cb f0 w v /\ world_value (om_grid o') cb' f0 w v.
Proof. exact recorded_same. Qed.
Print Assumptions C96_same.

(** Another recording of the scans of [C96_values_example], off by a 256th of a cell. *)
Example C96_same_example : exists o1 o2, recorded 3 f1 4 sm_lidar o1 [wd_1] /\ records 3 (max_range sm_lidar) f1 (om_grid o1) wd_2 sm_b wd_b2 /\ om_integrate 3072 as_is as_is o1 sm_b wd_b2 = Ret o2 /\
  recorded 3 f1 4 sm_lidar o2 [wd_1; wd_2] /\
  (gm_get (om_grid o2) [6; 0; 5] = Ret (f32_lit 85 100) /\ gm_get (om_grid o2) [2; 0; 5] = Ret (f32_lit 85 100) /\ gm_get (om_grid o2) [4; 0; 4] = Ret (f32_lit (-8) 10) /\ gm_get (om_grid o2) [6; 0; 4] = Ret (f32_lit (-4) 10)).
Proof. exact wd_second. Qed.

(** The next scan is taken exactly if all cells of the world that it hits or passes are in the map once it has grown. *)
Theorem C96_taken : forall d r t m o L s fuel of oo origin cloud, map_range d r t -> fltb f0 (max_range m) = true -> finite (max_range m) -> (real (max_range m) <= 1048576 * real r)%R ->
  recorded d r t m o L -> is_order of -> is_order oo -> records d (max_range m) r (om_grid o) s origin cloud -> (3072 <= fuel)%nat ->
  exists g1 cb, gm_expand_bounds (om_grid o) (pc_bounds cloud) f0 = Ret g1 /\ covers_cells d r t g1 cb /\
    ((exists o', om_integrate fuel of oo o origin cloud = Ret o') <->
     (forall w, scan_hits d (real (max_range m)) (real r) s w \/ scan_passes d (real (max_range m)) (real r) s w -> in_box cb w)).
Proof. exact recorded_continues. Qed.
Print Assumptions C96_taken.

(** It is enough that the cells of the sensor and of the points are in it. *)
Theorem C96_ends : forall d r t m o L s fuel of oo origin cloud, map_range d r t -> fltb f0 (max_range m) = true -> finite (max_range m) -> (real (max_range m) <= 1048576 * real r)%R ->
  recorded d r t m o L -> is_order of -> is_order oo -> records d (max_range m) r (om_grid o) s origin cloud -> (3072 <= fuel)%nat ->
  forall g1 cb, gm_expand_bounds (om_grid o) (pc_bounds cloud) f0 = Ret g1 -> covers_cells d r t g1 cb ->
  in_box cb (nearest_cell (world d) (real r) (fst s)) -> (forall q, In q (snd s) -> in_box cb (nearest_cell (world d) (real r) q)) ->
  exists o', om_integrate fuel of oo o origin cloud = Ret o'.
Proof. exact recorded_ends. Qed.
Print Assumptions C96_ends.

Example C96_ends_example : exists o1 g1 cb, recorded 3 f1 2 sm_lidar o1 [wd_1] /\ records 3 (max_range sm_lidar) f1 (om_grid o1) wd_2 sm_b wd_a2 /\
  gm_expand_bounds (om_grid o1) (pc_bounds wd_a2) f0 = Ret g1 /\ covers_cells 3 f1 2 g1 cb /\
  in_box cb (nearest_cell (world 3) (real f1) (fst wd_2)) /\ (forall q, In q (snd wd_2) -> in_box cb (nearest_cell (world 3) (real f1) q)).
Proof. exact wd_ends. Qed.
