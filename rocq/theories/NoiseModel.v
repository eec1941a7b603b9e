(** Model of src/map/lidar_noise_model.rs, src/map/noise_model.rs and
    src/map/occupancy_grid_map.rs. *)
From Coq Require Import ZArith List Bool.
From Flocq Require Import Core BinarySingleNaN.
From Verif Require Import Base F32 Arith Geom NdArray GridMap RayCaster.
Open Scope Z_scope.

(** src/map/lidar_noise_model.rs:11-16 *)
Definition DEFAULT_HIT_PROBABILITY : f32 := f32_lit 7 10.
Definition DEFAULT_MISS_PROBABILITY : f32 := f32_lit 4 10.
Definition DEFAULT_MIN_PROBABILITY : f32 := f32_lit 1192 10000.
Definition DEFAULT_MAX_PROBABILITY : f32 := f32_lit 971 1000.
Definition DEFAULT_OCCUPIED_THRESHOLD : f32 := f32_lit 5 10.
Definition DEFAULT_MAX_RANGE : f32 := f32_lit 60 1.

(** src/map/lidar_noise_model.rs:20-27 *)
Record lidar : Type := mkLidar {
  hit_logodds : f32;
  miss_logodds : f32;
  min_logodds : f32;
  max_logodds : f32;
  occupied_threshold_logodds : f32;
  max_range : f32
}.

(** p >= 0.0 && p <= 1.0 *)
Definition is_probability (p : f32) : bool := fleb f0 p && fleb p f1.

(** src/map/lidar_noise_model.rs:30-51 LidarNoiseModel::new; [ln] is f32::ln. *)
Definition lidar_new (ln : f32 -> f32) (hit miss mn mx thr range : f32) : outcome lidar :=
  do _ <- oassert (is_probability hit);
  do _ <- oassert (is_probability miss);
  do _ <- oassert (is_probability mn);
  do _ <- oassert (is_probability mx);
  do _ <- oassert (is_probability thr);
  let lo := logodds_from_probability F32A ln in
  Ret (mkLidar (lo hit) (lo miss) (lo mn) (lo mx) (lo thr) range).

(** src/map/lidar_noise_model.rs:53-62 *)
Definition lidar_default (ln : f32 -> f32) : outcome lidar :=
  lidar_new ln DEFAULT_HIT_PROBABILITY DEFAULT_MISS_PROBABILITY DEFAULT_MIN_PROBABILITY
            DEFAULT_MAX_PROBABILITY DEFAULT_OCCUPIED_THRESHOLD DEFAULT_MAX_RANGE.

(** The value written by lidar_noise_model.rs:77 *)
Definition hit_value (m : lidar) (v : f32) : f32 := fmin (fadd v (hit_logodds m)) (max_logodds m).
(** The value written by lidar_noise_model.rs:94 *)
Definition miss_value (m : lidar) (v : f32) : f32 := fmax (fadd v (miss_logodds m)) (min_logodds m).

(** src/map/lidar_noise_model.rs:64-79 integrate_hit *)
Definition integrate_hit (m : lidar) (g : grid_map f32) (c : cell) : outcome (grid_map f32) :=
  do v <- gm_get g c;
  gm_set g c (hit_value m v).

(** src/map/lidar_noise_model.rs:81-96 integrate_miss *)
Definition integrate_miss (m : lidar) (g : grid_map f32) (c : cell) : outcome (grid_map f32) :=
  do v <- gm_get g c;
  gm_set g c (miss_value m v).

(** src/map/lidar_noise_model.rs:112-114 default_cell_value *)
Definition default_cell_value : f32 := f0.

(** The order in which a HashSet with given elements is iterated is unspecified:
    it is an argument, an arbitrary function that permutes the elements. *)
Definition iteration_order := cset -> list cell.

(** src/map/lidar_noise_model.rs:135-140 and 141-146: the two loops.  [upd1] is
    the update of one cell; the second component collects changed_cells. *)
Definition update_loop (upd1 : grid_map f32 -> cell -> outcome (grid_map f32)) (track : bool)
                       (cells : list cell) (st : grid_map f32 * list cell)
  : outcome (grid_map f32 * list cell) :=
  ofold (fun (acc : grid_map f32 * list cell) c =>
           do g' <- upd1 (fst acc) c;
           Ret (g', if track then snd acc ++ [c] else snd acc))
        st cells.

(** src/map/lidar_noise_model.rs:116-150 integrate_point_cloud *)
Definition integrate_point_cloud (fuel : nat) (order_free order_occ : iteration_order)
    (m : lidar) (g : grid_map f32) (origin : point) (cloud : matrix)
  : outcome (grid_map f32) :=
  do g1 <- gm_expand_bounds g (pc_bounds cloud) default_cell_value;
  do fo <- cast_rays fuel origin cloud (gm_bounds g1) (gm_resolution g1) (max_range m);
  let track := gm_track_changes g1 in
  do s1 <- update_loop (integrate_miss m) track (order_free (fst fo)) (g1, []);
  do s2 <- update_loop (integrate_hit m) track (order_occ (snd fo)) s1;
  Ret (if track then gm_add_changed_cells (fst s2) (snd s2) else fst s2).

(** src/map/lidar_noise_model.rs:152-154 occupied *)
Definition occupied (m : lidar) (g : grid_map f32) (c : cell) : outcome bool :=
  do v <- gm_get g c;
  Ret (fltb (occupied_threshold_logodds m) v).

(** src/map/occupancy_grid_map.rs:19-29; all GridMap methods delegate to the inner
    map (occupancy_grid_map.rs:80-133). *)
Record occ_map : Type := mkOcc { om_grid : grid_map f32; om_model : lidar }.

(** src/map/occupancy_grid_map.rs:49-59 OccupancyGridMapN::new in dimension d *)
Definition om_new (d : nat) (m : lidar) (resolution : f32) (tile_size : Z) : outcome occ_map :=
  do g <- gm_new resolution (bounds_empty d) tile_size default_cell_value;
  Ret (mkOcc g m).

(** src/map/occupancy_grid_map.rs:41-47 OccupancyGridMapN::default *)
Definition om_default (d : nat) (ln : f32 -> f32) : outcome occ_map :=
  do m <- lidar_default ln;
  om_new d m DEFAULT_RESOLUTION DEFAULT_TILE_SIZE.

(** src/map/occupancy_grid_map.rs:61-64 *)
Definition om_integrate (fuel : nat) (order_free order_occ : iteration_order)
    (o : occ_map) (origin : point) (cloud : matrix) : outcome occ_map :=
  do g <- integrate_point_cloud fuel order_free order_occ (om_model o) (om_grid o) origin cloud;
  Ret (mkOcc g (om_model o)).

(** src/map/occupancy_grid_map.rs:66-68 *)
Definition om_occupied (o : occ_map) (c : cell) : outcome bool := occupied (om_model o) (om_grid o) c.
